{
 "claims": [
  {
   "property": "C01",
   "status": "proved",
   "theorems": [
    "C01_unpack_value"
   ],
   "note": "Exact value of every finite nonzero pattern of every instantiation whose FT holds the fraction."
  },
  {
   "property": "C02",
   "status": "proved",
   "theorems": [
    "C02_classification",
    "C02_classes_disjoint",
    "C02_pack_special"
   ],
   "note": "Every pattern is classified; classes are disjoint; special classes pack back to their pattern."
  },
  {
   "property": "C03",
   "status": "proved",
   "theorems": [
    "C03_pack_unpack"
   ],
   "note": "Round trip for every pattern; the room condition says exactly when packing shifts stay in range."
  },
  {
   "property": "C04",
   "status": "proved",
   "theorems": [
    "C04_compare"
   ],
   "note": "All six operators against the order of the rationals."
  },
  {
   "property": "C05",
   "status": "proved",
   "theorems": [
    "C05_nan_unordered",
    "C05_infinities_ordered"
   ],
   "note": "NaN unordered; signed infinities outside all finite values."
  },
  {
   "property": "C06",
   "status": "proved",
   "theorems": [
    "C06_injective"
   ],
   "note": "Injectivity of the value on finite patterns."
  },
  {
   "property": "C07",
   "status": "proved",
   "theorems": [
    "C07_negate"
   ],
   "note": "Exact, involutive."
  },
  {
   "property": "C08",
   "status": "proved",
   "theorems": [
    "C08_abs"
   ],
   "note": "Exact."
  },
  {
   "property": "C09",
   "status": "partial",
   "theorems": [
    "C09_special_sign_partial",
    "C09_special_sign_refuted"
   ],
   "note": "False in general. The theorem gives the outcome in every case: the signed infinities swap; the pattern 10..0 is kept only when T has exactly totalbits bits and at most 16 of them; with 32 or 64 such bits negation overflows, and with a wider T the result is no pattern of the format."
  },
  {
   "property": "C10",
   "status": "proved",
   "theorems": [
    "C10_pack_rounds"
   ],
   "note": "Truncation toward zero with saturation at both ends."
  },
  {
   "property": "C11",
   "status": "proved",
   "theorems": [
    "C11_pack_monotone",
    "C11_pack_fixed"
   ],
   "note": "Monotone, and posits are fixed points."
  },
  {
   "property": "C12",
   "status": "proved",
   "theorems": [
    "C12_multiply",
    "C12_narrow_refuted"
   ],
   "note": "With the exact condition (room) under which the result is defined. The FT condition is needed (shown)."
  },
  {
   "property": "C13",
   "status": "proved",
   "theorems": [
    "C13_divide",
    "C13_narrow_refuted"
   ],
   "note": "With the exact condition (room) under which the result is defined. The FT condition is needed (shown)."
  },
  {
   "property": "C14",
   "status": "proved",
   "theorems": [
    "C14_add_same_sign"
   ],
   "note": "With the exact conditions (near, room) under which the result is defined."
  },
  {
   "property": "C15",
   "status": "proved",
   "theorems": [
    "C15_add_faithful",
    "C15_sub_faithful",
    "C15_add_defined",
    "C15_sub_defined"
   ],
   "note": "Faithful, exact when representable, correct sign, for sums and differences."
  },
  {
   "property": "C16",
   "status": "partial",
   "theorems": [
    "C16_add_defined_partial",
    "C16_add_defined_refuted"
   ],
   "note": "False: undefined exactly when the exponents are at least max(32,bits of FT) apart."
  },
  {
   "property": "C17",
   "status": "partial",
   "theorems": [
    "C17_pack_defined_partial",
    "C17_pack_defined_refuted"
   ],
   "note": "False: undefined exactly when pack_room fails, which roomy instantiations (totalbits+1 < max(32, bits of T)) exclude."
  },
  {
   "property": "C18",
   "status": "proved",
   "theorems": [
    "C18_commutative",
    "C18_commutative_nan_refuted"
   ],
   "note": "Equal outcomes including undefined ones; false with a NaN operand (shown)."
  },
  {
   "property": "C19",
   "status": "proved",
   "theorems": [
    "C19_neutral"
   ],
   "note": "All identities, with the room condition for those that pack."
  },
  {
   "property": "C20",
   "status": "partial",
   "theorems": [
    "C20_nan_left_partial",
    "C20_nan_right",
    "C20_nan_propagates_refuted"
   ],
   "note": "False for a NaN on the right, which returns the left operand; true on the left."
  },
  {
   "property": "C21",
   "status": "proved",
   "theorems": [
    "C21_infinities",
    "C21_subtract_infinities"
   ],
   "note": "All combinations of infinities, zero and finite operands."
  },
  {
   "property": "C22",
   "status": "proved",
   "theorems": [
    "C22_divide_by_zero"
   ],
   "note": "All three specs."
  },
  {
   "property": "C23",
   "status": "partial",
   "theorems": [
    "C23_inv_partial",
    "C23_inv_refuted",
    "C23_inv_nan"
   ],
   "note": "False at the smallest posits of WithNanInf formats, where inv returns an infinity; proved everywhere else."
  },
  {
   "property": "C24",
   "status": "partial",
   "theorems": [
    "C24_inv_special_partial",
    "C24_inv_special_refuted"
   ],
   "note": "False: inv(0)=0 and inv(infinity)=infinity."
  },
  {
   "property": "C25",
   "status": "proved",
   "theorems": [
    "C25_inv_exact"
   ],
   "note": "Exact whenever 1/x is a posit."
  },
  {
   "property": "C26",
   "status": "partial",
   "theorems": [
    "C26_twice_partial",
    "C26_twice_infinite",
    "C26_twice_refuted"
   ],
   "note": "False only for the largest posit of WithNanInf formats with es=0, which becomes infinite."
  },
  {
   "property": "C27",
   "status": "partial",
   "theorems": [
    "C27_half_partial",
    "C27_half_minpos",
    "C27_half_refuted"
   ],
   "note": "False at the smallest posit, whose half is 0; proved everywhere else."
  },
  {
   "property": "C28",
   "status": "partial",
   "theorems": [
    "C28_next_prev_partial",
    "C28_next_max",
    "C28_next_refuted"
   ],
   "note": "False at two points: next(lowest) is lowest (not its successor) and next(max) is an infinity, NaN, no pattern or undefined, by instantiation (proved for each). Proved everywhere else; prev is proved for every finite posit."
  },
  {
   "property": "C29",
   "status": "proved",
   "theorems": [
    "C29_constants"
   ],
   "note": "Every instantiation, except that two() is the infinity pattern of the 3 bit WithNanInf formats."
  },
  {
   "property": "C30",
   "status": "partial",
   "theorems": [
    "C30_onehalf_partial",
    "C30_onehalf_refuted"
   ],
   "note": "False for holders wider than totalbits; proved when they are equal."
  },
  {
   "property": "C31",
   "status": "proved",
   "theorems": [
    "C31_fma_degenerate"
   ],
   "note": "With the exact packing condition (room); without room fma is undefined where a+c is not."
  },
  {
   "property": "C32",
   "status": "proved",
   "theorems": [
    "C32_dot",
    "C32_dot_small",
    "C32_dot_zero_term",
    "C32_dot_error"
   ],
   "note": "Any length, by induction; dot is the left to right unpacked sum of unpacked products, packed once. C32_dot_error bounds the distance to the exact sum for every length an int can hold (8 bit holders with fewer than 8 bits used: FT of at most 32 bits)."
  },
  {
   "property": "C33",
   "status": "partial",
   "theorems": [
    "C33_from_float_wide_partial",
    "C33_from_float_normal_partial",
    "C33_from_float_narrow_partial",
    "C33_narrow_fraction_refuted",
    "C33_narrow_exponent_refuted"
   ],
   "note": "Needs an exponent type with more bits than the source exponent. Proved for all bit patterns when FT holds the source fraction, and for normal numbers when FT only holds the posit fraction. False for denormals and NaNs when FT is narrower than the source fraction (shown); C33_from_float_narrow_partial states exactly what happens there for every bit pattern. Formats declared without denormals read denormals as 0."
  },
  {
   "property": "C34",
   "status": "proved",
   "theorems": [
    "C34_exact",
    "C34_round_trip",
    "C34_all_exact",
    "C34_all_round_trip",
    "C34_special_round_trip",
    "C34_specials"
   ],
   "note": "Exactness and round trip for the values covered by the target format; specials round trip too."
  },
  {
   "property": "C35",
   "status": "partial",
   "theorems": [
    "C35_pack_float_partial",
    "C35_pack_float_refuted",
    "C35_to_float",
    "C35_pack_denormal",
    "C35_to_float_denormal"
   ],
   "note": "Proved for exponents whose sum with the bias stays in the exponent type. False above that (shown). Below the normal range of a format declared without denormals the outcome is stated for every format and exponent: truncated, undefined behaviour when the shift is too long, and in formats of 32 and 64 bits the least negative denormal for tiny negative numbers."
  },
  {
   "property": "C36",
   "status": "proved",
   "theorems": [
    "C36_from_int",
    "C36_from_int_min"
   ],
   "note": "All ints; INT_MIN is undefined behaviour."
  },
  {
   "property": "C37",
   "status": "partial",
   "theorems": [
    "C37_to_int_partial",
    "C37_to_int_special",
    "C37_to_int_refuted"
   ],
   "note": "False for 1<=|x|<2 (undefined shift) and 2^31<=|x|<2^32 (wrong sign or overflow); the theorem gives the outcome on every range when FT holds the posit fraction."
  },
  {
   "property": "C38",
   "status": "partial",
   "theorems": [
    "C38_unit_range",
    "C38_one_minus_partial",
    "C38_one_minus_refuted"
   ],
   "note": "urOneMinus is exact for es=0 and wrong for every es>0."
  },
  {
   "property": "C39",
   "status": "partial",
   "theorems": [
    "C39_sigmoid_partial",
    "C39_sigmoid_32",
    "C39_sigmoid_refuted"
   ],
   "note": "False for every negative x unless holder and posit have 32 bits."
  },
  {
   "property": "C40",
   "status": "partial",
   "theorems": [
    "C40_min_max",
    "C40_sqrt_partial",
    "C40_sqrt_is_abs",
    "C40_sqrt_refuted"
   ],
   "note": "min and max proved; std::sqrt returns the absolute value, so the square root claim is false."
  },
  {
   "property": "C41",
   "status": "partial",
   "theorems": [
    "C41_eq_regular",
    "C41_eq_special",
    "C41_ne_partial",
    "C41_ne_refuted"
   ],
   "note": "False: != returns the same as == unless an operand is NaN. Equality itself is characterised."
  },
  {
   "property": "C42",
   "status": "partial",
   "theorems": [
    "C42_neg_partial",
    "C42_neg_refuted",
    "C42_sub_zero_refuted"
   ],
   "note": "False for specials: unary minus turns zero, infinity and NaN into 1 or -1, so u - zero is wrong too (shown). Regular numbers proved."
  },
  {
   "property": "C43",
   "status": "proved",
   "theorems": [
    "C43_mul_error",
    "C43_div_error",
    "C43_inv_error",
    "C43_div_any_refuted",
    "C43_div_any",
    "C43_div_half_refuted",
    "C43_inv_is_div"
   ],
   "note": "Relative error bounds for multiplication of any fractions, and for division and inv of any fractions except exactly those where the quotient is half of what it should be (characterised, C43_div_half_refuted)."
  },
  {
   "property": "C44",
   "status": "proved",
   "theorems": [
    "C44_leading_zeros",
    "C44_leading_zeros_zero",
    "C44_bitmask",
    "C44_bitmask_none",
    "C44_bitmask_over",
    "C44_bitset_get",
    "C44_pcabs",
    "C44_pabs",
    "C44_abs_min",
    "C44_cast_msb",
    "C44_cast_right_to_left"
   ],
   "note": "All widths and inputs, including the undefined cases."
  },
  {
   "property": "C45",
   "status": "partial",
   "theorems": [
    "C45_bitset_part_partial",
    "C45_bitset_part_general",
    "C45_bitset_part_refuted"
   ],
   "note": "Proved at offset 0. False at other offsets: the low size bits of input are cleared instead of the addressed field; the general theorem says what is computed."
  },
  {
   "property": "C46",
   "status": "proved",
   "theorems": [
    "C46_count_leading_zeroes"
   ],
   "note": "All nonzero 64 bit integers."
  },
  {
   "property": "C47",
   "status": "proved",
   "theorems": [
    "C47_float2bits",
    "C47_float2bits_special"
   ],
   "note": "Every finite float but -0, and the outcome for infinities and NaN. The float operations of the source are exact on the inputs they meet and are modelled on integers multiples of 2^-149."
  },
  {
   "property": "C48",
   "status": "proved",
   "theorems": [
    "C48_add",
    "C48_sub",
    "C48_mul",
    "C48_div",
    "C48_div_zero",
    "C48_inv",
    "C48_half",
    "C48_twice",
    "C48_square",
    "C48_nan",
    "C48_unary_nan",
    "C48_inv_zero"
   ],
   "note": "All shipped table entries, lifted from exhaustive kernel computation; inv(0)=0 is stated."
  },
  {
   "property": "C49",
   "status": "partial",
   "theorems": [
    "C49_mul_partial",
    "C49_div_partial",
    "C49_add_partial",
    "C49_add_step",
    "C49_unary",
    "C49_nan_refuted",
    "C49_add_refuted",
    "C49_half_refuted"
   ],
   "note": "False in general: the generic operators ignore a NaN right operand, sums of operands of opposite sign may differ by one step, half of the smallest numbers differs. Agreement proved elsewhere."
  },
  {
   "property": "C50",
   "status": "partial",
   "theorems": [
    "C50_posit8_partial",
    "C50_posit8_is_nan",
    "C50_posit8_epsilon",
    "C50_posit12_partial",
    "C50_posit10_partial",
    "C50_posit8_two_refuted",
    "C50_posit8_is_infinity_refuted",
    "C50_posit12_refuted",
    "C50_posit10_refuted",
    "C50_posit12_nan_refuted"
   ],
   "note": "False: posit8::two() is 1.25, posit8 is_infinity holds of NaN, posit12 and posit10 onehalf are 1/16, their infinities are finite numbers, posit10::max is not the largest, -NaN of posit12 leaves the format."
  },
  {
   "property": "C51",
   "status": "proved",
   "theorems": [
    "C51_inv",
    "C51_square",
    "C51_float",
    "C51_float_nan",
    "C51_mul",
    "C51_div",
    "C51_half",
    "C51_twice",
    "C51_specials"
   ],
   "note": "All finite operands; posit12 addition is the generic one (C15)."
  },
  {
   "property": "C52",
   "status": "proved",
   "theorems": [
    "C52_trait_constants",
    "C52_trait_fields",
    "C52_named_traits"
   ],
   "note": "Every format of 8,16,32,64 bits with 2 to 11 exponent bits; half, single and double traits are instances."
  },
  {
   "property": "C53",
   "status": "proved",
   "theorems": [
    "C53_unpack_float",
    "C53_float_round_trip"
   ],
   "note": "All formats and bit patterns."
  },
  {
   "property": "C54",
   "status": "partial",
   "theorems": [
    "C54_analyze_partial",
    "C54_analyze_refuted",
    "C54_analyze_special"
   ],
   "note": "False (undefined shifts) for es=0 with 32/64 bit holders and for 64 bit FT with narrower holders; proved for all other instantiations."
  },
  {
   "property": "C55",
   "status": "proved",
   "theorems": [
    "C55_epsilon",
    "C55_exponents"
   ],
   "note": "FT three or four bits wider than the posit fraction (add_fits); excludes the 3 bit WithNanInf formats, where one() is the largest posit."
  },
  {
   "property": "C56",
   "status": "proved",
   "theorems": [
    "C56_canonical"
   ],
   "note": "+ - * / - abs half give finite posits; inv, twice and division by zero give patterns of the format, possibly an infinity or NaN."
  },
  {
   "property": "C57",
   "status": "proved",
   "theorems": [
    "C57_sign_symmetry",
    "C57_inv_symmetry"
   ],
   "note": "Equality of outcomes, undefined ones included, for + * /; for inv whenever both sides are defined."
  },
  {
   "property": "C58",
   "status": "proved",
   "theorems": [
    "C58_monotone",
    "C58_add_monotone"
   ],
   "note": "Whenever both results are defined: products, quotients, sums and differences of operands of any signs."
  },
  {
   "property": "C59",
   "status": "partial",
   "theorems": [
    "C59_lanes_partial",
    "C59_minus_is_abs",
    "C59_minus_refuted",
    "C59_half_refuted"
   ],
   "note": "False for unary minus (absolute value), hence for minus, half and twice; the table operators are lanewise for any vector length."
  },
  {
   "property": "C60",
   "status": "partial",
   "theorems": [
    "C60_to_half_partial",
    "C60_to_float_bits_partial",
    "C60_to_float_refuted",
    "C60_sign"
   ],
   "note": "False: float16nto32 returns the bit pattern of the float as a number. The pattern itself is right."
  },
  {
   "property": "C61",
   "status": "proved",
   "theorems": [
    "C61_unpack_truncates"
   ],
   "note": "Every instantiation."
  },
  {
   "property": "C62",
   "status": "partial",
   "theorems": [
    "C62_divide_by_infinity_partial",
    "C62_divide_by_infinity_refuted"
   ],
   "note": "False: a finite nonzero number divided by an infinity is an infinity."
  },
  {
   "property": "C63",
   "status": "proved",
   "theorems": [
    "C63_fma_faithful",
    "C63_fma_error"
   ],
   "note": "Every instantiation with a wide FT: faithful. C63_fma_error bounds the error for FT with two spare bits."
  },
  {
   "property": "C64",
   "status": "partial",
   "theorems": [
    "C64_posit12_exp2_partial",
    "C64_posit12_exp2_above",
    "C64_posit12_exp2_nan",
    "C64_posit12_exp2_zero",
    "C64_posit8_exp2_partial",
    "C64_posit12_exp2_refuted"
   ],
   "note": "Proved for every posit8, and for posit12 when 0 <= x < 128 or -143 < x < -2^-25. False elsewhere, and settled exactly: the posit12 entry is 1 for -2^-25 <= x < 0, NaN from 128 on, 0 up to -143."
  },
  {
   "property": "C65",
   "status": "partial",
   "theorems": [
    "C65_order_partial",
    "C65_minmax",
    "C65_sign",
    "C65_nan_order_refuted"
   ],
   "note": "Finite operands; false for NaN, which is ordered below everything and equal to itself."
  },
  {
   "property": "C66",
   "status": "proved",
   "theorems": [
    "C66_float",
    "C66_float_nan",
    "C66_int",
    "C66_int_nan"
   ],
   "note": "Every pattern."
  },
  {
   "property": "C67",
   "status": "proved",
   "theorems": [
    "C67_convert_float"
   ],
   "note": "Every pair of formats."
  },
  {
   "property": "C68",
   "status": "proved",
   "theorems": [
    "C68_small_range_add",
    "C68_one_step"
   ],
   "note": "Every instantiation satisfying the stated conditions."
  },
  {
   "property": "C69",
   "status": "partial",
   "theorems": [
    "C69_multiply_partial",
    "C69_divide_partial",
    "C69_add_partial",
    "C69_subtract_partial",
    "C69_inverse_partial",
    "C69_overflow_refuted",
    "C69_subtract_nan_refuted"
   ],
   "note": "Every pattern, every rounding mode. Missing: multiplication and division need the exponent range of products_fit (C69_overflow_refuted shows why), fits excludes out of range shifts, and a - NaN is wrong or undefined when T has spare bits (C69_subtract_nan_refuted)."
  },
  {
   "property": "C70",
   "status": "proved",
   "theorems": [
    "C70_twice",
    "C70_half",
    "C70_of_int",
    "C70_epsilon"
   ],
   "note": "Every instantiation the float type covers, every rounding mode; room excludes the out of range shifts."
  },
  {
   "property": "C71",
   "status": "partial",
   "theorems": [
    "C71_multiply_partial",
    "C71_multiply_refuted"
   ],
   "note": "Proved when the float type holds every product exactly; C71_multiply_refuted gives a 32 bit es=2 product over double that is rounded up."
  },
  {
   "property": "C72",
   "status": "partial",
   "theorems": [
    "C72_order_partial",
    "C72_minmax",
    "C72_isinfinity_partial",
    "C72_nan_order_refuted",
    "C72_isinfinity_refuted"
   ],
   "note": "Finite operands, and isinfinity for formats with infinities; NaN compares equal to itself and below every number, and isinfinity(NaN) is true in formats with NaN only."
  },
  {
   "property": "C73",
   "status": "proved",
   "theorems": [
    "C73_rounding",
    "C73_nearest",
    "C73_overflow"
   ],
   "note": "Every format and every rational. This mode is part of the trusted description of the hardware floats."
  },
  {
   "property": "C74",
   "status": "partial",
   "theorems": [
    "C74_construct_partial",
    "C74_signalling_refuted",
    "C74_subnormal_refuted"
   ],
   "note": "Quiet NaNs; for 32 bit formats built from double also only zero and normal doubles. C74_signalling_refuted: a signalling NaN becomes an infinity in the half format. C74_subnormal_refuted: binary32_emu(double) shifts out of range for a subnormal double."
  },
  {
   "property": "C75",
   "status": "partial",
   "theorems": [
    "C75_convert_partial",
    "C75_convert_room",
    "C75_flush_refuted"
   ],
   "note": "Numbers below the normal range of the implementation type become zero (C75_flush_refuted, the 16 bit format with 8 exponent bits); C75_convert_room proves the full claim for formats float has room for, the 8 bit and the half format."
  },
  {
   "property": "C76",
   "status": "proved",
   "theorems": [
    "C76_round_trip"
   ],
   "note": "Every format inside float or double."
  },
  {
   "property": "C77",
   "status": "proved",
   "theorems": [
    "C77_multiply",
    "C77_multiply_exact",
    "C77_commutative",
    "C77_one"
   ],
   "note": "Every format inside float or double; the exact form for formats with the implementation type more than twice as precise. Subnormals of the implementation type count as zero."
  },
  {
   "property": "C78",
   "status": "proved",
   "theorems": [
    "C78_divide",
    "C78_divide_exact",
    "C78_inverse",
    "C78_inverse_exact"
   ],
   "note": "As C77; a zero divisor counts as positive, as its converted value has no sign."
  },
  {
   "property": "C79",
   "status": "partial",
   "theorems": [
    "C79_add_partial",
    "C79_subtract_partial",
    "C79_commutative",
    "C79_truncation_refuted"
   ],
   "note": "The sum is rounded to the implementation type before it is truncated; C79_truncation_refuted shows 65504 + (-2^-14) = 65504 in the half format."
  },
  {
   "property": "C80",
   "status": "proved",
   "theorems": [
    "C80_fma",
    "C80_twice",
    "C80_half",
    "C80_half_double",
    "C80_half_double_refuted"
   ],
   "note": "half of the double format goes through one rounding, which C80_half_double_refuted shows; all else as stated."
  },
  {
   "property": "C81",
   "status": "partial",
   "theorems": [
    "C81_compare_partial",
    "C81_minmax_partial",
    "C81_seen_room",
    "C81_tiny_refuted"
   ],
   "note": "Numbers below the normal range of the implementation type count as zero (C81_tiny_refuted); with C81_seen_room the full claim holds for the 8 bit and the half format."
  },
  {
   "property": "C82",
   "status": "proved",
   "theorems": [
    "C82_negate",
    "C82_abs",
    "C82_isnegative",
    "C82_iszero_refuted"
   ],
   "note": "Every pattern. C82_iszero_refuted: iszero is false for negative zero."
  },
  {
   "property": "C83",
   "status": "partial",
   "theorems": [
    "C83_from_int_partial",
    "C83_from_int_refuted"
   ],
   "note": "All ints but INT_MIN, which overflows."
  },
  {
   "property": "C84",
   "status": "partial",
   "theorems": [
    "C84_to_int_partial",
    "C84_to_int_refuted"
   ],
   "note": "Numbers from 1 to 2 in magnitude shift out of range (C84_to_int_refuted); the theorem also says what happens beyond 2^31."
  },
  {
   "property": "C85",
   "status": "proved",
   "theorems": [
    "C85_constants"
   ],
   "note": "Every format."
  },
  {
   "property": "C86",
   "status": "partial",
   "theorems": [
    "C86_posit12_exp2_partial",
    "C86_posit12_exp2_nearest",
    "C86_nearest_exists",
    "C86_posit12_exp2_refuted",
    "C86_posit8_binary_partial",
    "C86_posit8_unary",
    "C86_posit8_exp2",
    "C86_posit12_unary"
   ],
   "note": "All arrays of posit8; opinv, opsquare, op2float of posit12; exp2 of posit12 for every faithful exp2 outside (-2^-22, 0) and (127, inf), and for every entry when exp2 rounds to nearest. The claim for every faithful exp2 is false just below 0 (refuted with exp2 rounded down)."
  },
  {
   "property": "C87",
   "status": "partial",
   "theorems": [
    "C87_add",
    "C87_sub",
    "C87_mul",
    "C87_div",
    "C87_div_zero",
    "C87_inv",
    "C87_half",
    "C87_twice",
    "C87_square",
    "C87_epsilon",
    "C87_nan",
    "C87_exp2_partial",
    "C87_exp2_low_refuted",
    "C87_exp2_high_refuted",
    "C87_unary_nan"
   ],
   "note": "Every pattern; sums and differences pass through a float (via_float: truncated when the sum is a float, otherwise a neighbour). exp2 for every argument from -142 on is a neighbour of 2^x, or NaN above 127 when the machine's exp2 overflows; refuted below -142, where the result is 0, and from 128 on for an overflowing exp2."
  },
  {
   "property": "C88",
   "status": "partial",
   "theorems": [
    "C88_float_partial",
    "C88_float_nan",
    "C88_order",
    "C88_minmax",
    "C88_sign",
    "C88_nan_refuted"
   ],
   "note": "Every number. C88_nan_refuted: NaN equals itself, is below every number, and its negation is not a pattern and exceeds every number."
  },
  {
   "property": "C89",
   "status": "partial",
   "theorems": [
    "C89_posit8_partial",
    "C89_posit10_partial",
    "C89_posit12_partial",
    "C89_int_min_refuted",
    "C89_posit10_to_int",
    "C89_posit12_to_int"
   ],
   "note": "All floats and doubles: truncated, except that subnormals below the last bit FT keeps become 0 (stated exactly). All ints but INT_MIN, which is undefined behaviour (shown)."
  },
  {
   "property": "C90",
   "status": "partial",
   "theorems": [
    "C90_add_partial",
    "C90_sub_partial",
    "C90_add_refuted",
    "C90_sign",
    "C90_epsilon",
    "C90_order",
    "C90_minmax"
   ],
   "note": "Sums of operands near each other in magnitude (or with a zero); the theorem says exactly when the sum is undefined, and C90_add_refuted that it can be."
  },
  {
   "property": "C91",
   "status": "partial",
   "theorems": [
    "C91_negative",
    "C91_neg_exponent_partial",
    "C91_neg_exponent_refuted"
   ],
   "note": "is_negative for every number. has_neg_exponent for numbers that are not negative, posit10 and posit12; C91_neg_exponent_refuted: wrong for negative numbers, and posit8 tests the sign."
  },
  {
   "property": "C92",
   "status": "partial",
   "theorems": [
    "C92_predicates_partial",
    "C92_floats",
    "C92_infinity_refuted",
    "C92_minus_adds_abs",
    "C92_minus_refuted",
    "C92_twice_refuted"
   ],
   "note": "Predicates and floats for every vector. C92_infinity_refuted: maxpos counts as infinite. C92_minus_adds_abs and C92_minus_refuted: a-b is a+|b|. C92_twice_refuted."
  },
  {
   "property": "C93",
   "status": "partial",
   "theorems": [
    "C93_sum_error",
    "C93_sum_of_products",
    "C93_difference_of_products_partial",
    "C93_minus_zero_refuted"
   ],
   "note": "Single rounding of sums of two products for every finite operand when FT holds exact products; differences for nonzero factors on the right (C93_difference_of_products_partial). C93_minus_zero_refuted: 1*1-0*1 is 0. C93_sum_error bounds the error of sums for narrower FT."
  },
  {
   "property": "C94",
   "status": "partial",
   "theorems": [
    "C94_softplus_partial",
    "C94_unit_partial",
    "C94_above_one",
    "C94_negative_32_partial",
    "C94_negative_refuted",
    "C94_infinite_refuted",
    "C94_accuracy_refuted"
   ],
   "note": "x >= 0: finite, at least max(1,x), monotone; 1+x truncated on [0,1] for es=0; useed*x truncated above 1. Negative x only for 32 bit posits in 32 bit holders; refuted for negative x elsewhere and for the largest number of formats with infinities. C94_accuracy_refuted: for even patterns x >= 1 the result exceeds ln(1+exp(x)) by more than x-1 (uses the axioms of the standard real numbers)."
  },
  {
   "property": "C95",
   "status": "partial",
   "theorems": [
    "C95_delta_partial",
    "C95_positf_delta_partial",
    "C95_delta_refuted"
   ],
   "note": "Proved for es=0 in Posit (truncated) and PositF (faithful). C95_delta_refuted: for es>0 the factor used for 1-x is wrong."
  },
  {
   "property": "C96",
   "status": "proved",
   "theorems": [
    "C96_sign_tests"
   ],
   "note": "Every finite posit of every instantiation."
  },
  {
   "property": "C97",
   "status": "partial",
   "theorems": [
    "C97_sigmoid_accuracy_partial",
    "C97_sigmoid_accuracy_32",
    "C97_sigmoid_accuracy_refuted"
   ],
   "note": "Proved for x >= 0 in every instantiation with es=0 and for all x when holder and posit have 32 bits; for every negative posit8 the result is off by more than 1/2 (refuted). Uses the axioms of the standard real numbers."
  },
  {
   "property": "C98",
   "status": "proved",
   "theorems": [
    "C98_convert",
    "C98_convert_specials",
    "C98_convert_order",
    "C98_round_trip",
    "C98_widen",
    "C98_two_steps"
   ],
   "note": "Definedness is exactly the room predicate of the other operations."
  },
  {
   "property": "C99",
   "status": "partial",
   "theorems": [
    "C99_mul",
    "C99_div",
    "C99_inv",
    "C99_square",
    "C99_half",
    "C99_add_partial",
    "C99_add_truncates_refuted",
    "C99_exp2",
    "C99_exp2_special"
   ],
   "note": "For + the sum is rounded to float before it is cut: refuted that it truncates the exact sum. exp2 also for infinities and NaN."
  },
  {
   "property": "C100",
   "status": "partial",
   "theorems": [
    "C100_negation_partial",
    "C100_subtraction_partial",
    "C100_subtraction_refuted",
    "C100_order_partial",
    "C100_order_refuted",
    "C100_zeros_refuted",
    "C100_nan_refuted",
    "C100_minmax_partial"
   ],
   "note": "The code is wrong: negation right for 4 of 256 numbers, order reversed among negatives, NaN ordered. The theorems say exactly where it is right."
  },
  {
   "property": "C101",
   "status": "partial",
   "theorems": [
    "C101_to_float",
    "C101_to_double",
    "C101_to_int_partial",
    "C101_abs",
    "C101_is_negative",
    "C101_constants",
    "C101_epsilon_refuted",
    "C101_constructors_refuted"
   ],
   "note": "Infinity and NaN to int is undefined behaviour; constructors from int, float and double are refuted; epsilon is refuted."
  },
  {
   "property": "C102",
   "status": "partial",
   "theorems": [
    "C102_add",
    "C102_sub",
    "C102_shl_partial",
    "C102_shr_partial",
    "C102_shift_by_zero_refuted",
    "C102_less_partial",
    "C102_less_refuted",
    "C102_convert"
   ],
   "note": "+ - and conversions proved; shifts for counts 1..127, count 0 is undefined; < is sound but not complete (refuted)."
  },
  {
   "property": "C103",
   "status": "partial",
   "theorems": [
    "C103_mul_partial",
    "C103_div_partial",
    "C103_inv_partial",
    "C103_specials",
    "C103_inv_specials",
    "C103_mul_refuted",
    "C103_div_inv_refuted"
   ],
   "note": "The code is wrong: the theorems say for exactly which operands the result is exact; 3*3, 3/2 and 1/3 refuted. Special values agree with the native version."
  },
  {
   "property": "C104",
   "status": "partial",
   "theorems": [
    "C104_signed_partial",
    "C104_signed_refuted",
    "C104_unsigned_partial",
    "C104_unsigned_31_refuted",
    "C104_unsigned_32_refuted"
   ],
   "note": "Counter overflow and the shift 1<<totalbits exclude wide formats, each refuted. The binary output is C148, the text output C152. The program is taken without the line that uses the undefined posit_formatter."
  },
  {
   "property": "C105",
   "status": "partial",
   "theorems": [
    "C105_infinity_partial",
    "C105_infinity_refuted",
    "C105_nan",
    "C105_denorm_min",
    "C105_bounded_refuted",
    "C105_digits10_refuted",
    "C105_exponents_refuted"
   ],
   "note": "has_infinity for WithNan formats, is_bounded and digits10 are wrong, min_exponent and max_exponent are one less than the C++ standard's (refuted); epsilon and what the exponents do say are C55, min/max/lowest C29."
  },
  {
   "property": "C106",
   "status": "proved",
   "theorems": [
    "C106_load_store",
    "C106_size_128",
    "C106_size_256",
    "C106_max",
    "C106_cmplt_blend"
   ],
   "note": "Fifteen AVX2 classes. The instructions' meaning is trusted (first part of Asimd.v)."
  },
  {
   "property": "C107",
   "status": "partial",
   "theorems": [
    "C107_blendindex_partial",
    "C107_blendindex_16_partial",
    "C107_blendindex_d2_partial",
    "C107_blendindex_refuted"
   ],
   "note": "Proved for the eight classes with a correct blendindex; for simd_i16_16, simd_u16_16 and simd_d_2 the places that are right are proved and the claim is refuted; four classes have no definition."
  },
  {
   "property": "C108",
   "status": "partial",
   "theorems": [
    "C108_argmax_partial",
    "C108_greatest_partial",
    "C108_argmax_refuted"
   ],
   "note": "Any number of vectors, elements without NaN, the eight classes with a correct blendindex; the greatest elements also for the other classes with a blendindex, their indices refuted."
  },
  {
   "property": "C109",
   "status": "partial",
   "theorems": [
    "C109_loadstrided_partial",
    "C109_loadstrided_refuted",
    "C109_initincrement",
    "C109_increment"
   ],
   "note": "Classes that gather need byte offsets within 32 bits (refuted without); memory is total, so allocation is not modelled."
  },
  {
   "property": "C110",
   "status": "proved",
   "theorems": [
    "C110_neg",
    "C110_arith",
    "C110_half",
    "C110_convert",
    "C110_convert_other",
    "C110_compare"
   ],
   "note": "The SoftFloat library is trusted to be the IEEE operations; the divisor may not be negative zero, whose quotient's sign the model does not give. rem, sqrt and mulAdd are not modelled."
  },
  {
   "property": "C111",
   "status": "partial",
   "theorems": [
    "C111_constants_partial",
    "C111_epsilon",
    "C111_denorm_min",
    "C111_digits",
    "C111_exponent10",
    "C111_exponent_refuted"
   ],
   "note": "All constants but min_exponent and max_exponent, which are off by one from what the standard asks (refuted)."
  },
  {
   "property": "C112",
   "status": "proved",
   "theorems": [
    "C112_singles"
   ],
   "note": "All 32 bit patterns and arrays."
  },
  {
   "property": "C113",
   "status": "partial",
   "theorems": [
    "C113_doubles_partial",
    "C113_doubles_refuted"
   ],
   "note": "All doubles but NaN with all of the payload in the lower word, which become infinite (refuted)."
  },
  {
   "property": "C114",
   "status": "proved",
   "theorems": [
    "C114_to_singles"
   ],
   "note": "All halves and arrays."
  },
  {
   "property": "C115",
   "status": "partial",
   "theorems": [
    "C115_to_doubles_partial",
    "C115_upper_word_partial",
    "C115_to_doubles_refuted"
   ],
   "note": "For targets whose lower words are 0; in general the upper word is right and the lower one is kept, so the result may be another number (refuted)."
  },
  {
   "property": "C116",
   "status": "proved",
   "theorems": [
    "C116_single",
    "C116_double"
   ],
   "note": "For every earlier content of the targets, although C115 fails for some."
  },
  {
   "property": "C117",
   "status": "proved",
   "theorems": [
    "C117_singles",
    "C117_doubles",
    "C117_to_singles",
    "C117_to_doubles",
    "C117_null"
   ],
   "note": "Arrays of doubles are given as words in either byte order."
  },
  {
   "property": "C118",
   "status": "partial",
   "theorems": [
    "C118_return_partial",
    "C118_long_refuted"
   ],
   "note": "With a long of 32 bits; with 64 bits the routines return 1 and convert nothing (refuted)."
  },
  {
   "property": "C119",
   "status": "partial",
   "theorems": [
    "C119_of_single",
    "C119_of_double_partial",
    "C119_of_double_refuted",
    "C119_of_integer",
    "C119_to_single",
    "C119_to_double",
    "C119_to_other"
   ],
   "note": "All classes; doubles with the restriction of C113 (NaN with all of the payload in the lower word becomes infinite, refuted). single() of an integer is any rounding that keeps representable numbers and the order; conversion to other classes is MATLAB's."
  },
  {
   "property": "C120",
   "status": "partial",
   "theorems": [
    "C120_alphabet",
    "C120_count",
    "C120_named_partial",
    "C120_p8a_refuted"
   ],
   "note": "p1, p2, p4 and p8; p8a raises (refuted). p16a and ppi8 are not modelled."
  },
  {
   "property": "C121",
   "status": "proved",
   "theorems": [
    "C121_partition"
   ],
   "note": "All well-formed alphabets; membership is defined in SpecPunum.v without the code."
  },
  {
   "property": "C122",
   "status": "partial",
   "theorems": [
    "C122_float",
    "C122_fraction_partial",
    "C122_rounded_partial",
    "C122_fraction_refuted"
   ],
   "note": "Floats, and fractions that are doubles; other fractions get the pnum of their rounded value, which can be another (refuted)."
  },
  {
   "property": "C123",
   "status": "proved",
   "theorems": [
    "C123_neg",
    "C123_inv",
    "C123_next",
    "C123_next_above",
    "C123_exact",
    "C123_zero_inf",
    "C123_negative",
    "C123_fractional",
    "C123_abs",
    "C123_value"
   ],
   "note": "All pnums of all well-formed alphabets of fractions."
  },
  {
   "property": "C124",
   "status": "partial",
   "theorems": [
    "C124_plus_partial",
    "C124_minus_partial",
    "C124_exact",
    "C124_unbounded_refuted",
    "C124_tight_refuted"
   ],
   "note": "Containment except for the two unbounded pnums of opposite sign (refuted for every alphabet), where sums and products of two points are doubles; that nothing else is contained is refuted."
  },
  {
   "property": "C125",
   "status": "partial",
   "theorems": [
    "C125_times_partial",
    "C125_exact",
    "C125_signs_refuted",
    "C125_fractions_refuted"
   ],
   "note": "Equal signs, exact pnums, 0 and infinity, where sums and products of two points are doubles; different signs refuted, other alphabets refuted."
  },
  {
   "property": "C126",
   "status": "partial",
   "theorems": [
    "C126_named",
    "C126_everything",
    "C126_complement_partial",
    "C126_invert_partial",
    "C126_iter",
    "C126_complement_refuted",
    "C126_invert_refuted"
   ],
   "note": "Complement except of everything, reciprocal except of the empty bound (both refuted)."
  },
  {
   "property": "C127",
   "status": "proved",
   "theorems": [
    "C127_multiply",
    "C127_divide",
    "C127_inv",
    "C127_add",
    "C127_sub",
    "C127_fma",
    "C127_from_int",
    "C127_from_float",
    "C127_convert"
   ],
   "note": "Relative error below 2^-fracbits for mul, div, inv, add, sub, fma and conversions; factor useed for truncating operations at the ends."
  },
  {
   "property": "C128",
   "status": "proved",
   "theorems": [
    "C128_close",
    "C128_unit_sum",
    "C128_unit_difference",
    "C128_zero"
   ],
   "note": "Exact close differences (defined when roomy), exact sums up to 1 with esbits 0, zero results."
  },
  {
   "property": "C129",
   "status": "proved",
   "theorems": [
    "C129_from_int",
    "C129_arithmetic"
   ],
   "note": "Integers below 2^(e+1) with e <= fracbits e: conversion, sums, differences, products, whole quotients."
  },
  {
   "property": "C130",
   "status": "partial",
   "theorems": [
    "C130_closed_partial",
    "C130_exit_refuted",
    "C130_finite"
   ],
   "note": "Induction over the values a program can compute, no condition on FT. Partial: negation of 10..0 and next of the largest leave the format when totalbits is smaller than the holder (C130_exit_refuted). C130_finite is complete."
  },
  {
   "property": "C131",
   "status": "partial",
   "theorems": [
    "C131_defined_partial",
    "C131_numbers",
    "C131_products",
    "C131_wide_refuted"
   ],
   "note": "Exact condition: the exponents of the largest and smallest number differ by less than max(32, bits of FT) (C131_numbers is an equivalence, for programs over numbers). C131_defined_partial covers all patterns for 8 and 16 bit types filling their holder. C131_products adds fma, sums of two products and dot of up to n elements, again with the exact condition. Partial: wider formats execute out of range shifts in + (C131_wide_refuted)."
  },
  {
   "property": "C132",
   "status": "partial",
   "theorems": [
    "C132_posit8_partial",
    "C132_posit8_symmetric",
    "C132_posit8_falls",
    "C132_posit8_steps",
    "C132_posit8_nan",
    "C132_posit12_partial",
    "C132_posit12_falls_partial",
    "C132_posit12_symmetric",
    "C132_posit12_defined",
    "C132_posit12_refuted",
    "C132_simd_refuted"
   ],
   "note": "posit8 complete (range, 1 exactly at mu, symmetry, monotonicity, NaN). Partial: posit12 only where x - mu is defined, and with 0 and 1 allowed away from mu (C132_posit12_refuted); symmetry (swapping x and mu, signs) holds there too, undefined outcomes included. The SIMD type computes something else: every lane is at least 1 (C132_simd_refuted). posit10 and binary8tab, whose tables are not in the repository, are left out."
  },
  {
   "property": "C133",
   "status": "proved",
   "theorems": [
    "C133_programs",
    "C133_not_with_subtraction"
   ],
   "note": "Relative error by induction over the program; the condition on sizes is on the exact results of the steps (precise_steps). C133_not_with_subtraction shows why subtraction is left out."
  },
  {
   "property": "C134",
   "status": "proved",
   "theorems": [
    "C134_sum",
    "C134_dot",
    "C134_positive",
    "C134_positive_dot"
   ],
   "note": "General lists by induction (C134_sum, C134_dot); C134_positive and C134_positive_dot have conditions on the inputs only and include definedness."
  },
  {
   "property": "C135",
   "status": "partial",
   "theorems": [
    "C135_dot_partial",
    "C135_dot_nonnegative_partial",
    "C135_dot_posit8",
    "C135_dot_bound",
    "C135_dot_bound_signs",
    "C135_dot_refuted",
    "C135_fma"
   ],
   "note": "fma: exact condition when FT holds exact products. dot: for vectors of up to n elements (2 or 3 <= n < 2^31) the exact condition on range and length, both for nonnegative products and for any signs; posit8 meets it for every vector of fewer than 2^31 elements, posit10, posit12 and posit16 already fail it for two elements. Missing: outside the condition the claim is false; which single vectors are fine there is not characterised, C32_dot_error gives the outcome up to definedness."
  },
  {
   "property": "C136",
   "status": "partial",
   "theorems": [
    "C136_base_restored",
    "C136_pattern_partial",
    "C136_pattern_refuted",
    "C136_pattern_distinct",
    "C136_fields",
    "C136_fields_special",
    "C136_fields_distinct",
    "C136_float",
    "C136_float_distinct_refuted",
    "C136_no_base_refuted"
   ],
   "note": "Base restored: all modes. Pattern as a decimal number: all holders but 8 bits, which are written as a character (refuted). Octal mode: all numbers and special values, different posits give different texts. Decimal mode: exact float when the format fits into float; different 32 bit posits can give the same text (refuted). Nothing is written when no base flag is set (refuted)."
  },
  {
   "property": "C137",
   "status": "partial",
   "theorems": [
    "C137_fields",
    "C137_special",
    "C137_distinct",
    "C137_base_partial",
    "C137_base_refuted",
    "C137_positf"
   ],
   "note": "Fields and distinctness for every unpacked number and fraction width. The base is left alone by special values and on decimal streams only (refuted beyond); PositF likewise."
  },
  {
   "property": "C138",
   "status": "partial",
   "theorems": [
    "C138_tabulated",
    "C138_binary8_partial",
    "C138_binary8_refuted",
    "C138_vector",
    "C138_vector_unsigned",
    "C138_vector_base",
    "C138_bytes_base_refuted"
   ],
   "note": "posit8, posit10, posit12: all patterns and bases. binary8tab is written as a character (refuted). Vectors: 8, 16, 32 bit elements on decimal streams, any length; __m256i makes the stream decimal (refuted)."
  },
  {
   "property": "C139",
   "status": "partial",
   "theorems": [
    "C139_dot_partial",
    "C139_dot_order_partial",
    "C139_dot_posit8",
    "C139_fma_partial",
    "C139_sum_of_products_partial",
    "C139_dot_refuted"
   ],
   "note": "Proved when twice the range plus log2 of the length less one (at least 1) plus 2 is at most the bits of FT (posit8 with a 64 bit FT: every vector of fewer than 2^31 elements; with 32 bits: up to 128 elements). Refuted for posit8 with its 8 bit FT. Missing: formats whose squared range exceeds FT, where it is false in general."
  },
  {
   "property": "C140",
   "status": "partial",
   "theorems": [
    "C140_rows_partial",
    "C140_all_partial",
    "C140_once",
    "C140_count",
    "C140_pair_refuted",
    "C140_main",
    "C140_values",
    "C140_unary_refuted"
   ],
   "note": "All well formed alphabets whose sums and products are doubles (p1, p2, p4, p8): rows right, none twice, all pairs but p and -p below 1, which are missing (refuted); 4n^2-3n+1 rows. Unary operations other than float raise (refuted)."
  },
  {
   "property": "C141",
   "status": "partial",
   "theorems": [
    "C141_negate",
    "C141_abs",
    "C141_double_partial",
    "C141_half_partial",
    "C141_half_refuted",
    "C141_double_refuted"
   ],
   "note": "Whole for b - a and absolute values (outcomes, undefined behaviour included); doubling but for the largest number of WithNanInf types with esbits 0; halving but for +-minpos, where it is false in every type (refuted)."
  },
  {
   "property": "C142",
   "status": "partial",
   "theorems": [
    "C142_triangle",
    "C142_reverse_triangle",
    "C142_back_partial",
    "C142_back_refuted",
    "C142_inverse_partial"
   ],
   "note": "Triangle inequalities whole. Round trips when the quotient or product is not below minpos (refuted below); inv(inv(x)) but for +-minpos of WithNanInf."
  },
  {
   "property": "C143",
   "status": "partial",
   "theorems": [
    "C143_midpoint",
    "C143_half_sum",
    "C143_half_sum_partial",
    "C143_half_sum_refuted"
   ],
   "note": "a + (b-a).half() whole; (a+b).half() never exceeds the larger magnitude, and is not below the smaller of two positive numbers when its double is a posit (refuted otherwise)."
  },
  {
   "property": "C144",
   "status": "partial",
   "theorems": [
    "C144_load_store",
    "C144_size",
    "C144_max",
    "C144_cmplt_blend",
    "C144_blendindex",
    "C144_argmax",
    "C144_loadstrided_partial",
    "C144_loadstrided_refuted",
    "C144_initincrement",
    "C144_increment"
   ],
   "note": "Whole for the three AVX-512 classes except loadstrided, which needs byte offsets within 32 bits (refuted without). The instructions' meaning is trusted (first part of Asimd512.v)."
  },
  {
   "property": "C145",
   "status": "partial",
   "theorems": [
    "C145_load_store",
    "C145_load_stride",
    "C145_fill",
    "C145_max",
    "C145_cmplt_blend",
    "C145_blendindex_partial",
    "C145_blendindex_refuted",
    "C145_initincrement",
    "C145_increment",
    "C145_gather"
   ],
   "note": "Whole except blendindex, which is right for the eleven classes whose own blendindex is (C107, C144) and wrong for three others (refuted); four classes do not define it."
  },
  {
   "property": "C146",
   "status": "proved",
   "theorems": [
    "C146_posit8",
    "C146_posit10",
    "C146_posit12",
    "C146_binary8",
    "C146_posit8_shipped",
    "C146_posit12_shipped"
   ],
   "note": "The four generators: the text is defined, reads back as one namespace with exactly the declared arrays, sizes and entries, each in range of its type; posit8 equals the shipped arrays, posit12 the shipped opinv, opsquare and op2float (its opexp2 depends on the exp2 used, see C86). The reader of SpecGenText stands for the compiler."
  },
  {
   "property": "C147",
   "status": "proved",
   "theorems": [
    "C147_faithful",
    "C147_powers",
    "C147_file"
   ],
   "note": "Whole, for any rounding that satisfies the definition of rounding and any faithful exp2 on floats. The reader of SpecGenText stands for the compiler."
  },
  {
   "property": "C148",
   "status": "partial",
   "theorems": [
    "C148_loads_partial",
    "C148_columns",
    "C148_unsigned_partial",
    "C148_unsigned_refuted",
    "C148_summary",
    "C148_resolution",
    "C148_limits",
    "C148_search",
    "C148_value_refuted"
   ],
   "note": "Under rounding of doubles and formats whose values and patterns are doubles: columns, summary, resolution (exact when the distances have at most 53 bits), limits and searches. Missing: existence of the file where the counter overflows (C104), the unsigned column for all but 8 bit formats (refuted: it repeats the signed one), the search by value when squared distances vanish (refuted)."
  },
  {
   "property": "C149",
   "status": "proved",
   "theorems": [
    "C149_range"
   ],
   "note": "Whole, for both byte orders."
  },
  {
   "property": "C150",
   "status": "partial",
   "theorems": [
    "C150_made",
    "C150_columns",
    "C150_resolution_partial",
    "C150_ends",
    "C150_resolution_refuted",
    "C150_summary"
   ],
   "note": "Columns, ends, summary and the resolution of all numbers but zero. Refuted for zero: its two patterns have a row each and count as neighbours of one another, so the rows of zero have half the resolution and the least resolution of the table is 2^-25."
  },
  {
   "property": "C151",
   "status": "partial",
   "theorems": [
    "C151_nearest_partial",
    "C151_far_refuted",
    "C151_sum",
    "C151_sum_refuted"
   ],
   "note": "The nearest posit for every double up to twice the greatest posit, ties going to the lower one, under any rounding, for formats with N + 2^es <= 48 and range and resolution within 2^390; the sum, the posit nearest to it and the error, exact for formats up to 2^26. Refuted: 2^1000 gives the most negative posit because all squares overflow; the sum of the greatest and smallest 16 bit posits with one exponent bit is no double."
  },
  {
   "property": "C152",
   "status": "partial",
   "theorems": [
    "C152_lines_partial",
    "C152_output_partial",
    "C152_overview_partial",
    "C152_unsigned_refuted",
    "C152_heading_refuted",
    "C152_infinity_refuted",
    "C152_half_refuted"
   ],
   "note": "Lines, range and order for every format string without p (with the letter o for 8 bit formats only; with U up to 30 bits); the heading unless the letter o is asked for; existence without overview; the sizes in the overview, its special patterns when the format has an infinity, least and greatest number for esbits 0. Refuted: the unsigned column of other formats, the heading with o, the infinities shown for a format without any, the value shown as half (at least 1)."
  },
  {
   "property": "C153",
   "status": "proved",
   "theorems": [
    "C153_max",
    "C153_min",
    "C153_converted"
   ],
   "note": "Both limits, and the bounds of the conversion for every finite double."
  },
  {
   "property": "C154",
   "status": "partial",
   "theorems": [
    "C154_order_partial",
    "C154_corner",
    "C154_order_refuted",
    "C154_small_refuted"
   ],
   "note": "Right for n = 2; for every n from 2 on the returned list is described. Refuted for n from 3 on (all indices in the first four rows and columns, repeated) and for 0 and 1 (an error)."
  },
  {
   "property": "C155",
   "status": "partial",
   "theorems": [
    "C155_binop_partial",
    "C155_refused",
    "C155_long_refused",
    "C155_unop",
    "C155_complex_refuted",
    "C155_unknown_refuted",
    "C155_unknown_unary_refuted",
    "C155_empty_refuted",
    "C155_arguments_refuted"
   ],
   "note": "Every element for two real or two complex arrays, for any special value setting; refusals. Refuted: complex with real of twice the elements writes out of bounds; unknown operators return unwritten memory; an empty operator text and too few arguments are read out of bounds."
  },
  {
   "property": "C156",
   "status": "partial",
   "theorems": [
    "C156_to_float",
    "C156_from_float_partial",
    "C156_round_trip",
    "C156_refused",
    "C156_from_float_refuted"
   ],
   "note": "Exact to the float classes, cut from every float, round trip for every array. Refuted: NaNs with a small payload become infinities and tiny numbers become 0."
  },
  {
   "property": "C157",
   "status": "partial",
   "theorems": [
    "C157_add_error_partial",
    "C157_add_exact_partial",
    "C157_add_self",
    "C157_mul_two",
    "C157_cancel",
    "C157_specials_partial",
    "C157_add_refuted"
   ],
   "note": "Error bound and exactness for all exponents that stay in range and less than max(32, F) apart; u + u, 2 * u and u - u. Refuted: a NaN on the right is ignored, exponents further apart and differences of one unit shift out of range, the two lowest bits are lost, exponents wrap around."
  },
  {
   "property": "C158",
   "status": "partial",
   "theorems": [
    "C158_fields",
    "C158_construct",
    "C158_named_partial",
    "C158_from_int",
    "C158_inversion_bit",
    "C158_readme_one_refuted"
   ],
   "note": "All formats and fields. Refuted: the pattern the README gives for one, 001(0)+, is 2^-2^es; one is 01(0)+. For es=0 two is 011(0)*, as the formula 01(0){es}1 says."
  },
  {
   "property": "C159",
   "status": "proved",
   "theorems": [
    "C159_extract",
    "C159_posit"
   ],
   "note": "All words, and all positive posits of at most 32 bits."
  },
  {
   "property": "C160",
   "status": "partial",
   "theorems": [
    "C160_mul",
    "C160_div",
    "C160_add_partial",
    "C160_zero",
    "C160_sub_zero_refuted",
    "C160_narrow_refuted"
   ],
   "note": "Products and quotients need two bits more than the float, sums and differences four. Refuted: with 8 bit fractions and 7 bit floats sums lose the last bit; subtracting a zero that was read from a float shifts by more bits than there are."
  },
  {
   "property": "C161",
   "status": "partial",
   "theorems": [
    "C161_frexp",
    "C161_double",
    "C161_inverse_partial",
    "C161_narrow_refuted"
   ],
   "note": "Every float and every fraction type with four bits more than the float. Refuted without them: 127.5 with 7 fraction bits, inverted twice with 8 bit fractions, is 64."
  },
  {
   "property": "C162",
   "status": "proved",
   "theorems": [
    "C162_dot",
    "C162_limit"
   ],
   "note": "All arrays and formats. C162_limit shows that past the bound the low bits are lost."
  },
  {
   "property": "C163",
   "status": "partial",
   "theorems": [
    "C163_floor_partial",
    "C163_negative_refuted",
    "C163_zero",
    "C163_overflow",
    "C163_regime"
   ],
   "note": "Proved for positive divisors. For negative divisors the result is the floor only when the division is exact (refuted, with the size of the error); the two undefined cases are stated."
  },
  {
   "property": "C164",
   "status": "proved",
   "theorems": [
    "C164_hardware",
    "C164_same",
    "C164_empty_refuted",
    "C164_all",
    "C164_msb",
    "C164_lsb",
    "C164_split",
    "C164_msb_none"
   ],
   "note": "All types and integers. C164_empty_refuted: a field of no bits is zero with the instruction and undefined without it."
  },
  {
   "property": "C165",
   "status": "partial",
   "theorems": [
    "C165_number_partial",
    "C165_zero",
    "C165_infinity_refuted"
   ],
   "note": "Normal floats (C165_number_partial) and zeros (C165_zero). C165_infinity_refuted: infinities pass only in formats with two infinities."
  },
  {
   "property": "C166",
   "status": "partial",
   "theorems": [
    "C166_posit_partial",
    "C166_room_refuted",
    "C166_unpacked",
    "C166_lowest_refuted"
   ],
   "note": "Posits: numbers whose packing has room for its shifts, whatever the fraction type (C166_posit_partial); without it the inverse is undefined (C166_room_refuted). Unpacked: all exponents but the lowest, for which C166_lowest_refuted shows the overflow."
  }
 ]
}