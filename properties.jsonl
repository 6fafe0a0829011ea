{"id": "C01", "title": "Unpacking a posit yields the value the posit standard assigns to its bits", "statement": "For every finite posit x, x.unpack() terminates without undefined behaviour and returns a sign, exponent and fraction whose exact rational value (-1)^s * 2^exponent * (1 + fraction/2^bits(FT)) equals the value that the posit definition (sign, run-length regime, zero-padded exponent, remaining fraction bits) assigns to the bit pattern of x, provided FT has at least totalbits-3-esbits bits.", "quantifier": "every legal template instantiation Posit<T,totalbits,esbits,FT,spec> and every bit pattern that is neither zero, NaN nor infinity", "why_tests_cant": "The template has four independent numeric parameters; enumerating patterns is possible only for tiny instances while 32 and 64 bit holders have up to 2^63 patterns each.", "anchors": ["include/posit.h:unpack_low", "include/posit.h:decode_posit_rs", "include/posit.h:unpacked_low2full", "include/posit.h:join_reg_exp", "include/bithippop.hpp:findbitleftmostC"]}
{"id": "C02", "title": "Special patterns are classified exactly", "statement": "zero unpacks to Zero; the pattern 10..0 unpacks to NaN (WithNan, WithNanInf) or Infinity (WithInf); for WithNanInf the two neighbours of 10..0 unpack to signed infinities; every other pattern unpacks to a Regular number; and packing each special class gives back the documented pattern.", "quantifier": "every legal template instantiation Posit<T,totalbits,esbits,FT,spec> and every canonical pattern", "why_tests_cant": "quantifies over all template parameters and all patterns", "anchors": ["include/posit.h:isNaN", "include/posit.h:isinfinity", "include/posit.h:iszero", "include/posit.h:unpack_low", "include/posit.h:pack_low"]}
{"id": "C03", "title": "Packing an unpacked posit is the identity", "statement": "Posit(x.unpack()) has the same bit pattern as x for every canonical pattern x (finite, zero, NaN, infinity), whenever FT holds all fraction bits and the shifts executed by packing are within the width of the holder.", "quantifier": "every legal template instantiation Posit<T,totalbits,esbits,FT,spec> and every canonical pattern", "why_tests_cant": "2^totalbits patterns times all parameter choices", "anchors": ["include/posit.h:pack_posit", "include/posit.h:unpack_posit", "include/posit.h:pack_low", "include/posit.h:unpack_low"]}
{"id": "C04", "title": "Comparison operators order posits by value", "statement": "For finite posits a and b, a<b, a<=b, a>b, a>=b, a==b, a!=b return exactly the comparison of the two rational values denoted by the patterns.", "quantifier": "every legal template instantiation Posit<T,totalbits,esbits,FT,spec> and every pair of finite patterns", "why_tests_cant": "pairs of patterns: up to 2^128 cases for one instantiation", "anchors": ["include/posit.h:operator<", "include/posit.h:operator=="]}
{"id": "C05", "title": "NaN is unordered", "statement": "When the type has NaN (WithNan, WithNanInf), any of <, <=, >, >=, == with a NaN operand is false and != is true; infinities of WithNanInf compare above/below every finite value.", "quantifier": "every legal template instantiation Posit<T,totalbits,esbits,FT,spec> and every operand", "why_tests_cant": "ranges over all operands of all instantiations", "anchors": ["include/posit.h:operator<", "include/posit.h:operator!=", "include/posit.h:isNaN"]}
{"id": "C06", "title": "Different finite patterns denote different numbers", "statement": "Two finite canonical patterns that denote the same rational value are the same pattern (no redundant encodings, a single zero), so == on patterns is equality of numbers.", "quantifier": "every legal template instantiation Posit<T,totalbits,esbits,FT,spec> and every pair of finite patterns", "why_tests_cant": "pairs of patterns over all parameters", "anchors": ["include/posit.h:operator==", "include/posit.h:unpack_low"]}
{"id": "C07", "title": "Negation is exact and involutive on finite posits", "statement": "-x of a finite posit is defined, is a finite canonical posit denoting minus the value of x, and -(-x) has the pattern of x.", "quantifier": "every legal template instantiation Posit<T,totalbits,esbits,FT,spec> and every finite pattern", "why_tests_cant": "all patterns of all instantiations", "anchors": ["include/posit.h:neg", "include/posit.h:operator-"]}
{"id": "C08", "title": "Absolute value is exact on finite posits", "statement": "abs() and std::abs of a finite posit are defined and denote the absolute value of x.", "quantifier": "every legal template instantiation Posit<T,totalbits,esbits,FT,spec> and every finite pattern", "why_tests_cant": "all patterns of all instantiations", "anchors": ["include/posit.h:abs", "include/bithippop.hpp:pcabs"]}
{"id": "C09", "title": "Negation and absolute value preserve NaN and infinity", "statement": "-x and abs(x) of NaN is NaN, and of infinity is an infinity, so that special values are not turned into numbers.", "quantifier": "every legal template instantiation Posit<T,totalbits,esbits,FT,spec>", "why_tests_cant": "must hold for every holder/totalbits combination; the shipped tests use only a few", "anchors": ["include/posit.h:neg", "include/posit.h:abs"]}
{"id": "C10", "title": "Construction from an unpacked number truncates toward zero and saturates", "statement": "For every Regular unpacked number u of value q, Posit(u) is the posit of largest magnitude that does not exceed |q| in magnitude, with the sign of q; magnitudes below the smallest posit give the smallest posit and magnitudes above the largest give the largest: a nonzero number never becomes zero, NaN or infinity.", "quantifier": "every legal template instantiation Posit<T,totalbits,esbits,FT,spec> with packing shifts in range, every exponent of the exponent type, every fraction, both signs", "why_tests_cant": "unbounded exponent and fraction ranges", "anchors": ["include/posit.h:pack_posit", "include/posit.h:unpacked_full2low", "include/posit.h:pack_low", "include/posit.h:maxexponent", "include/posit.h:minexponent", "include/unpacked.h:clamp"]}
{"id": "C11", "title": "Rounding is monotone", "statement": "If the value of unpacked u is at most the value of unpacked w then Posit(u) <= Posit(w); a posit value is a fixed point of rounding.", "quantifier": "every pair of regular unpacked numbers and every instantiation", "why_tests_cant": "pairs over unbounded ranges", "anchors": ["include/posit.h:pack_posit", "include/posit.h:pack_low"]}
{"id": "C12", "title": "Multiplication is the truncation of the exact product", "statement": "For finite nonzero a and b, a*b is the truncation (with saturation) of the exact rational product of their values.", "quantifier": "every legal template instantiation Posit<T,totalbits,esbits,FT,spec> whose FT has at least totalbits-esbits-1 bits; every pair of finite patterns", "why_tests_cant": "pairs of patterns over all parameters", "anchors": ["include/posit.h:operator*", "include/posit.h:operator*=", "include/unpacked.h:operator*", "include/typehelpers.hpp:extramul"]}
{"id": "C13", "title": "Division is the truncation of the exact quotient", "statement": "For finite a and finite nonzero b, a/b is the truncation (with saturation) of the exact rational quotient.", "quantifier": "every legal template instantiation Posit<T,totalbits,esbits,FT,spec> whose FT has at least totalbits-esbits-1 bits; every pair of finite patterns with nonzero divisor", "why_tests_cant": "pairs of patterns over all parameters", "anchors": ["include/posit.h:operator/", "include/unpacked.h:operator/", "include/typehelpers.hpp:extradiv"]}
{"id": "C14", "title": "Addition of operands of equal sign is the truncation of the exact sum", "statement": "For finite a,b of the same sign whose exponents differ by less than the shift width of FT, a+b is the truncation (with saturation) of the exact sum.", "quantifier": "every legal template instantiation Posit<T,totalbits,esbits,FT,spec> whose FT has at least totalbits-esbits-1 bits; every pair of finite patterns of one sign", "why_tests_cant": "pairs of patterns over all parameters", "anchors": ["include/posit.h:operator+", "include/unpacked.h:operator+", "include/unpacked.h:normalized"]}
{"id": "C15", "title": "Addition and subtraction are faithful", "statement": "For finite a,b whose exponents differ by less than the shift width of FT, a+b and a-b return one of the two posits enclosing the exact result (or saturate); when the exact result is a posit value it is returned exactly; the result is zero only if the exact result is zero, and has its sign.", "quantifier": "every legal template instantiation Posit<T,totalbits,esbits,FT,spec> whose FT has three bits more than the longest posit fraction (four from 32 bits on); every pair of finite patterns", "why_tests_cant": "pairs of patterns over all parameters", "anchors": ["include/posit.h:operator+", "include/posit.h:operator-", "include/unpacked.h:operator+"]}
{"id": "C16", "title": "Addition is defined for every pair of finite posits", "statement": "a+b has no undefined behaviour whatever the distance between the exponents of a and b.", "quantifier": "every legal template instantiation Posit<T,totalbits,esbits,FT,spec> and every pair of finite patterns", "why_tests_cant": "the failing pairs need a large exponent gap that random tests seldom hit, and the compiled behaviour depends on the target", "anchors": ["include/unpacked.h:operator+"]}
{"id": "C17", "title": "Packing is defined for every unpacked number", "statement": "Posit(u) has no undefined behaviour for any unpacked u.", "quantifier": "every legal template instantiation Posit<T,totalbits,esbits,FT,spec> and every unpacked number", "why_tests_cant": "depends on parameter values at the edge of the holder width", "anchors": ["include/posit.h:pack_low", "include/posit.h:maxexponent"]}
{"id": "C18", "title": "Addition and multiplication commute", "statement": "a+b and b+a, a*b and b*a give the same outcome for all operands that are not NaN.", "quantifier": "every legal template instantiation Posit<T,totalbits,esbits,FT,spec> and every pair of non-NaN patterns", "why_tests_cant": "pairs of patterns over all parameters", "anchors": ["include/posit.h:operator+", "include/posit.h:operator*", "include/unpacked.h:operator+", "include/unpacked.h:operator*"]}
{"id": "C19", "title": "Neutral and absorbing elements", "statement": "x+0, 0+x, x-0, x*1, 1*x, x/1 return x; x*0 and 0*x return 0; x-x returns 0; x/x returns 1 (x nonzero); x*(-1) is -x, for finite x.", "quantifier": "every legal template instantiation Posit<T,totalbits,esbits,FT,spec> whose FT has at least totalbits-esbits-1 bits (three more than the posit fraction for x-x), every finite pattern for which packing is defined", "why_tests_cant": "all patterns of all instantiations", "anchors": ["include/posit.h:operator+", "include/posit.h:operator*", "include/posit.h:operator/", "include/posit.h:operator-"]}
{"id": "C20", "title": "NaN propagates through arithmetic", "statement": "If either operand of +,-,*,/ is NaN then so is the result.", "quantifier": "every instantiation with NaN and every other operand", "why_tests_cant": "all operands of all instantiations; both operand positions", "anchors": ["include/unpacked.h:operator+", "include/unpacked.h:operator*", "include/unpacked.h:operator/"]}
{"id": "C21", "title": "Arithmetic with infinities", "statement": "With infinities present: finite+inf = inf, inf*nonzero finite = inf with product sign, inf*0, 0*inf, 0/0, inf/inf, inf-inf are the exceptional value, finite nonzero/0 = inf.", "quantifier": "WithInf and WithNanInf instantiations, every finite operand", "why_tests_cant": "all operands of all instantiations", "anchors": ["include/unpacked.h:operator+", "include/unpacked.h:operator*", "include/unpacked.h:operator/", "include/posit.h:pack_low"]}
{"id": "C22", "title": "Division by zero is signalled", "statement": "x/0 is NaN in WithNan, infinity in WithInf and the infinity with the sign of x in WithNanInf for finite nonzero x; 0/0 is the exceptional value.", "quantifier": "every legal template instantiation Posit<T,totalbits,esbits,FT,spec> and every finite x", "why_tests_cant": "all patterns of all instantiations", "anchors": ["include/unpacked.h:operator/", "include/posit.h:pack_low"]}
{"id": "C23", "title": "inv is the truncated reciprocal", "statement": "x.inv() (also ~x and inv(x)) of a finite nonzero posit is the truncation of the exact reciprocal and equals one()/x.", "quantifier": "every legal template instantiation Posit<T,totalbits,esbits,FT,spec> whose FT has at least totalbits-esbits-1 bits and every finite nonzero pattern", "why_tests_cant": "all patterns of all instantiations", "anchors": ["include/posit.h:inv", "include/unpacked.h:inv"]}
{"id": "C24", "title": "inv of zero and of infinity follow division", "statement": "inv(0) is the result of 1/0 (infinity or NaN) and inv(infinity) is 0.", "quantifier": "every legal template instantiation Posit<T,totalbits,esbits,FT,spec>", "why_tests_cant": "must hold for every instantiation", "anchors": ["include/posit.h:inv"]}
{"id": "C25", "title": "inv of a power of two", "statement": "If x has a zero fraction then x.inv() is exactly 1/x whenever 1/x is a posit.", "quantifier": "every legal template instantiation Posit<T,totalbits,esbits,FT,spec> whose FT has at least totalbits-esbits-1 bits and every posit whose reciprocal is a posit", "why_tests_cant": "all patterns of all instantiations", "anchors": ["include/posit.h:inv", "include/posit.h:pack_low"]}
{"id": "C26", "title": "twice doubles", "statement": "x.twice() is the truncation with saturation of 2x, for every finite posit.", "quantifier": "every legal template instantiation Posit<T,totalbits,esbits,FT,spec> and every finite pattern", "why_tests_cant": "all patterns of all instantiations", "anchors": ["include/posit.h:twice"]}
{"id": "C27", "title": "half halves and never underflows to zero", "statement": "x.half() is the truncation with saturation of x/2 for every finite posit; in particular it is nonzero for nonzero x.", "quantifier": "every legal template instantiation Posit<T,totalbits,esbits,FT,spec> and every finite pattern", "why_tests_cant": "all patterns of all instantiations", "anchors": ["include/posit.h:half"]}
{"id": "C28", "title": "next and prev walk through the values without gaps", "statement": "x.next() (x.prev()) of a finite posit is the smallest finite posit greater (greatest smaller) than x, saturating at max (lowest).", "quantifier": "every legal template instantiation Posit<T,totalbits,esbits,FT,spec> and every finite pattern", "why_tests_cant": "all patterns of all instantiations", "anchors": ["include/posit.h:next", "include/posit.h:prev"]}
{"id": "C29", "title": "Named constants denote their names", "statement": "zero(), one(), mone(), two(), max(), min(), lowest() denote 0, 1, -1, 2, the largest, the smallest positive and the most negative finite posit.", "quantifier": "every legal template instantiation Posit<T,totalbits,esbits,FT,spec>", "why_tests_cant": "infinitely many template instantiations", "anchors": ["include/posit.h:PositTrait", "include/posit.h:one", "include/posit.h:two", "include/posit.h:max", "include/posit.h:min", "include/posit.h:lowest"]}
{"id": "C30", "title": "onehalf denotes one half", "statement": "onehalf() is a canonical posit denoting 1/2.", "quantifier": "every legal template instantiation Posit<T,totalbits,esbits,FT,spec>", "why_tests_cant": "infinitely many template instantiations", "anchors": ["include/posit.h:POSIT_HALF", "include/posit.h:onehalf"]}
{"id": "C31", "title": "fma agrees with multiplication and addition on degenerate arguments", "statement": "fma(a,b,0) = a*b; fma(a,1,c) = fma(1,a,c) = a+c; fma is a single rounding of an accumulated unpacked result.", "quantifier": "every legal template instantiation Posit<T,totalbits,esbits,FT,spec> whose FT has at least totalbits-esbits-1 bits and every finite pattern for which packing is defined", "why_tests_cant": "triples of patterns", "anchors": ["include/posit.h:fma"]}
{"id": "C32", "title": "dot accumulates in unpacked form over any length", "statement": "dot over n<1 elements is zero, over one element is the product, and over n elements is the left-to-right unpacked sum of unpacked products rounded once; it reads exactly n elements of each sequence. The result is the truncation of a number whose distance to the exact sum of products is at most ((1+2^(4-bits of FT))^n - 1) times the sum of the magnitudes of the products; the only undefined behaviour is an out of range shift.", "quantifier": "every length and every element values", "why_tests_cant": "vector length is unbounded", "anchors": ["include/posit.h:dot"]}
{"id": "C33", "title": "Conversion from float and double truncates", "statement": "Posit(f) for a finite nonzero float/double/half f (normal or denormal) is the truncation with saturation of the exact value of f; 0 gives 0; NaN gives NaN and infinity gives infinity of the same sign (or NaN in WithNan).", "quantifier": "every legal template instantiation Posit<T,totalbits,esbits,FT,spec> with exponent type of at least 16 bits; every bit pattern of the source format", "why_tests_cant": "2^64 doubles times all instantiations", "anchors": ["include/unpacked.h:unpack_xfloati", "include/posit.h:Posit(float)", "include/posit.h:Posit(double)", "include/floattraits.hpp:single_trait", "include/floattraits.hpp:double_trait"]}
{"id": "C34", "title": "Conversion to float and double is exact when the value fits and round trips", "statement": "If the exponent of x is in the normal range of the target and its fraction fits, then (double)x denotes exactly the value of x and Posit((double)x) is x.", "quantifier": "every legal template instantiation whose FT is at least as wide as the posit fraction and whose exponent type holds the exponents of the target, and every pattern within range", "why_tests_cant": "all patterns of all instantiations", "anchors": ["include/unpacked.h:pack_xfloati", "include/posit.h:operator double", "include/posit.h:operator float"]}
{"id": "C35", "title": "Conversion to a float format truncates and saturates", "statement": "pack_xfloati of a regular number yields the float of the target format obtained by truncating the fraction; exponents above the range give the largest finite value of the same sign; exponents below the normal range of a format declared with denormals give zero.", "quantifier": "every unpacked number and every float trait", "why_tests_cant": "unbounded set of unpacked numbers", "anchors": ["include/unpacked.h:pack_xfloati", "include/unpacked.h:fraction_bit_extract"]}
{"id": "C36", "title": "Conversion from int truncates", "statement": "Posit(i) is the truncation with saturation of the integer i, for every int except INT_MIN.", "quantifier": "every legal template instantiation whose FT is at least 32 bits wide or holds all fraction bits of the posit, and every int", "why_tests_cant": "2^32 ints times all instantiations", "anchors": ["include/unpacked.h:unpack_xfixed", "include/posit.h:Posit(int)"]}
{"id": "C37", "title": "Conversion to int truncates toward zero", "statement": "(int)x is the integer part of x when |x|<2^31, the nearest int bound when |x|>=2^31, and 0 for NaN, infinity and zero.", "quantifier": "every legal template instantiation Posit<T,totalbits,esbits,FT,spec> whose FT holds the posit fraction and every pattern", "why_tests_cant": "all patterns of all instantiations; some patterns run into undefined shifts whose outcome depends on the target", "anchors": ["include/unpacked.h:pack_xfixed", "include/posit.h:operator int"]}
{"id": "C38", "title": "isUnitRange and urOneMinus", "statement": "isUnitRange() holds exactly for values in [0,1]; for such x urOneMinus() denotes exactly 1-x.", "quantifier": "every legal template instantiation Posit<T,totalbits,esbits,FT,spec> and every pattern in the unit range", "why_tests_cant": "all patterns of all instantiations", "anchors": ["include/posit.h:isUnitRange", "include/posit.h:urOneMinus"]}
{"id": "C39", "title": "pseudosigmoid stays in the unit interval and is monotone", "statement": "For esbits=0 pseudosigmoid() of every finite x is a posit in [0,1], is monotone in x, gives 1/2 at 0.", "quantifier": "instantiations with esbits = 0 and every pattern", "why_tests_cant": "all patterns of all holders; depends on integer promotion of the holder type", "anchors": ["include/posit.h:pseudosigmoid", "include/posit.h:pseudosoftplus"]}
{"id": "C40", "title": "std::min, std::max and std::sqrt", "statement": "std::min/std::max return the operand with the smaller/larger value; std::sqrt(x) squared is x up to rounding.", "quantifier": "every legal template instantiation Posit<T,totalbits,esbits,FT,spec> and every pair of finite patterns", "why_tests_cant": "pairs of patterns over all parameters", "anchors": ["include/posit.h:min", "include/posit.h:max", "include/posit.h:sqrt"]}
{"id": "C41", "title": "Unpacked equality and inequality are complementary", "statement": "u != w is the negation of u == w for all unpacked numbers.", "quantifier": "every pair of unpacked numbers", "why_tests_cant": "pairs over unbounded ranges", "anchors": ["include/unpacked.h:operator==", "include/unpacked.h:operator!="]}
{"id": "C42", "title": "Unpacked negation and subtraction", "statement": "-u denotes minus u for every unpacked u, including zero, infinity and NaN; u - zero is u.", "quantifier": "every unpacked number", "why_tests_cant": "unbounded ranges", "anchors": ["include/unpacked.h:operator-", "include/unpacked.h:operator-="]}
{"id": "C43", "title": "Unpacked multiplication and division have bounded relative error", "statement": "For regular u, w with fractions whose low bit is clear, the magnitude of u*w is at most the exact product and above it times (1-2^(2-F)); the same for u/w with fractions whose two low bits are clear, as long as the exponent fits its type. For all other fractions u/w is within 2^(2-F) of the quotient, except when the fraction of w without its last bit is odd and exceeds that of u by one; then it is half the quotient.", "quantifier": "every pair of regular unpacked numbers, every fraction type", "why_tests_cant": "pairs over unbounded ranges", "anchors": ["include/unpacked.h:operator*", "include/unpacked.h:operator/", "include/unpacked.h:inv"]}
{"id": "C44", "title": "Bit helpers compute what they say", "statement": "findbitleftmostC returns the number of leading zeros of a nonzero 8,16,32,64 bit integer; bitmask<R>(n) has exactly n low ones; bitset_get(x,o,n) is the n-bit field of x at o; pabs and pcabs agree with the absolute value; cast_msb and cast_right_to_left keep the leading bits.", "quantifier": "every input of each width", "why_tests_cant": "2^64 inputs", "anchors": ["include/bithippop.hpp:findbitleftmostC", "include/bithippop.hpp:bitmask", "include/bithippop.hpp:bitset_get", "include/bithippop.hpp:pabs", "include/bithippop.hpp:pcabs", "include/bithippop.hpp:cast_msb", "include/bithippop.hpp:cast_right_to_left"]}
{"id": "C45", "title": "bitset_part replaces exactly the addressed field", "statement": "bitset_part(input,value,offset,size) replaces the size bits at offset by the low bits of value and leaves the others unchanged.", "quantifier": "every input, value, offset and size", "why_tests_cant": "2^64 inputs and all fields", "anchors": ["include/bithippop.hpp:bitset_part"]}
{"id": "C46", "title": "count_leading_zeroes by De Bruijn multiplication", "statement": "count_leading_zeroes(v) is the number of leading zeros of every nonzero 64-bit v.", "quantifier": "every nonzero 64-bit integer", "why_tests_cant": "2^64 inputs", "anchors": ["include/floatconst2bits.hpp:count_leading_zeroes"]}
{"id": "C47", "title": "float2bits returns the bit pattern of a float", "statement": "float2bits(f) is the IEEE single bit pattern of f for every finite float other than -0, including denormals, and for infinities.", "quantifier": "every finite float", "why_tests_cant": "2^32 floats; loop termination", "anchors": ["include/floatconst2bits.hpp:float2bits"]}
{"id": "C48", "title": "Tabulated posit8 arithmetic is truncation of exact arithmetic", "statement": "For all finite operands posit8 +, -, *, / equal the truncation of the exact rational result (division by zero is NaN), and inv, half, twice, square of a finite operand are the truncation of the exact function (inv(0) is 0); NaN operands give NaN.", "quantifier": "all pairs of finite posit8 patterns, all pairs with a NaN, every single pattern", "why_tests_cant": "the shipped tests compare floats approximately on sampled pairs, not against the exact definition", "anchors": ["src/posit8_tbl.cpp", "include/posit8.hpp:operator+", "src/posit8_gen.cpp"]}
{"id": "C49", "title": "Tabulated posit8 agrees with the generic Posit<int8_t,8,0,uint8_t>", "statement": "posit8 +, *, /, negation, absolute value, inv, half, twice and square agree with the generic template on every operand.", "quantifier": "all pairs of posit8 patterns, every single pattern", "why_tests_cant": "exhaustive comparison over every pair and operator", "anchors": ["src/posit8_tbl.cpp", "include/posit.h:operator*"]}
{"id": "C50", "title": "posit8/posit10/posit12 constants and predicates", "statement": "one(), two(), onehalf(), max(), min(), pinfinity(), is_infinity(), is_nan() of the tabulated classes denote what they name and agree with the generic trait.", "quantifier": "every constant and every pattern of the three classes", "why_tests_cant": "predicates range over all patterns", "anchors": ["include/posit8.hpp", "include/posit10.hpp", "include/posit12.hpp"]}
{"id": "C51", "title": "posit12 lookup tables match the generic definition", "statement": "posit12 inv, square, *, /, half, twice of finite operands are the truncation of the exact result, and conversion to float is exact and round trips.", "quantifier": "all pairs (for * and /) and all single finite patterns of the 12-bit format", "why_tests_cant": "needs comparison against the exact definition of every entry", "anchors": ["src/posit12_tbl.cpp", "src/posit12_gen.cpp", "include/posit12.hpp"]}
{"id": "C52", "title": "Float trait constants are the IEEE encodings they name", "statement": "one_h, two_h, max_h, lowest_h, min_h, pinfinity_h, ninfinity_h, nan_h of every trait decode to 1, 2, the largest finite, the lowest finite, the smallest normal, the infinities and a NaN; exponent_bias, exponent_max, exponent_mask and signbit are those of the encoding; for any_floattrait this holds for all exponent and fraction widths.", "quantifier": "every exponent and fraction width", "why_tests_cant": "infinitely many instantiations", "anchors": ["include/floattraits.hpp:any_floattrait", "include/floattraits.hpp:half_trait", "include/floattraits.hpp:single_trait", "include/floattraits.hpp:double_trait"]}
{"id": "C53", "title": "Widening a small float format is lossless", "statement": "Unpacking any finite value of a float trait (denormals included) into a fraction type at least as wide as its fraction, with a sufficient exponent type, yields exactly its value; packing it to the same format returns the same bits for normal numbers.", "quantifier": "every float trait, every bit pattern", "why_tests_cant": "all patterns of all formats", "anchors": ["include/unpacked.h:unpack_xfloati", "include/unpacked.h:pack_xfloati", "include/anyfloat.hpp"]}
{"id": "C54", "title": "analyze reports the fields of the encoding", "statement": "analyze() of a finite posit reports sign, regime k, regime size, exponent and fraction size such that 1+rs+es+fs = totalbits and the reported fields determine its value.", "quantifier": "every legal template instantiation Posit<T,totalbits,esbits,FT,spec> and every finite pattern", "why_tests_cant": "all patterns of all instantiations", "anchors": ["include/posit.h:analyze"]}
{"id": "C55", "title": "numeric_limits epsilon and exponents", "statement": "epsilon() is defined and one()+epsilon() is the successor of one(); max()=2^max_exponent and min()=2^min_exponent.", "quantifier": "every legal template instantiation Posit<T,totalbits,esbits,FT,spec> whose FT is wide enough for addition (as in C15), other than the 3 bit WithNanInf formats", "why_tests_cant": "infinitely many template instantiations", "anchors": ["include/posit.h:numeric_limits", "include/posit.h:maxexponent", "include/posit.h:minexponent"]}
{"id": "C56", "title": "Every operation returns a canonical pattern", "statement": "All operations applied to finite operands return a pattern in the totalbits range, sign extended in the holder; + - * and / by a nonzero number, negation, abs and half never return NaN or infinity.", "quantifier": "every legal template instantiation Posit<T,totalbits,esbits,FT,spec> whose FT is wide enough for addition (as in C15) and every pair of finite operands", "why_tests_cant": "all patterns of all instantiations", "anchors": ["include/posit.h:pack_low", "include/posit.h:operator+", "include/posit.h:operator*", "include/posit.h:operator/", "include/posit.h:inv", "include/posit.h:half", "include/posit.h:twice"]}
{"id": "C57", "title": "Arithmetic is sign symmetric", "statement": "(-a)*b = a*(-b) = -(a*b), (-a)/b = -(a/b), (-a)+(-b) = -(a+b), inv(-a) = -inv(a) on finite operands.", "quantifier": "every legal template instantiation Posit<T,totalbits,esbits,FT,spec> whose FT is wide enough for addition (as in C15) and every pair of finite patterns", "why_tests_cant": "pairs of patterns over all parameters", "anchors": ["include/posit.h:operator*", "include/posit.h:operator/", "include/posit.h:operator+", "include/posit.h:inv"]}
{"id": "C58", "title": "The arithmetic operators are monotone", "statement": "For finite c>0, a<=b implies a*c <= b*c and a/c <= b/c; for every finite c, a<=b implies a+c <= b+c, c+a <= c+b, a-c <= b-c and c-b <= c-a.", "quantifier": "every legal template instantiation Posit<T,totalbits,esbits,FT,spec> whose FT has at least totalbits-esbits-1 bits and every triple of finite patterns with defined results", "why_tests_cant": "triples of patterns", "anchors": ["include/posit.h:operator*", "include/posit.h:operator/", "include/posit.h:operator+", "include/posit.h:operator-"]}
{"id": "C59", "title": "SIMD posit8 operations act lane by lane", "statement": "Each lane of a simd_posit8_32 +, *, /, inv, exp2, square is the scalar posit8 result of that lane's operands; unary minus negates each lane; half and twice halve and double each lane.", "quantifier": "every pair of byte vectors of equal length", "why_tests_cant": "256^32 vectors", "anchors": ["include/simdposit8.hpp:lookup2", "include/simdposit8.hpp:operator-"]}
{"id": "C60", "title": "Software half/single conversion", "statement": "Without F16C, float32to16n and float16nto32 convert values (truncating, flushing magnitudes below the smallest normal half to zero); converting a normal half to float and back is the identity; negation and abs of a half negate and take the absolute value.", "quantifier": "every 32-bit and every 16-bit pattern", "why_tests_cant": "exhaustive over patterns and against the value definition", "anchors": ["include/float16native32.hpp:float16nto32", "include/float16native32.hpp:float32to16n"]}
{"id": "C61", "title": "Unpacking with a narrow fraction type truncates", "statement": "When FT is narrower than the posit fraction, x.unpack() is still defined and its value is the truncation of x to bits(FT) fraction bits: below x in magnitude by less than one unit in the last place.", "quantifier": "every legal template instantiation and every finite nonzero pattern", "why_tests_cant": "all patterns of infinitely many instantiations", "anchors": ["include/posit.h:unpack", "include/posit.h:low2full", "include/bithippop.hpp:cast_msb"]}
{"id": "C62", "title": "Finite divided by infinity is zero", "statement": "x/infinity is 0 for every finite x.", "quantifier": "WithInf and WithNanInf instantiations, every finite x", "why_tests_cant": "all patterns of infinitely many instantiations", "anchors": ["include/unpacked.h:operator/", "include/posit.h:operator/"]}
{"id": "C63", "title": "fma is faithful when FT holds exact products", "statement": "fma(a,b,c) of finite posits is one of the two posits enclosing the exact a*b+c (exact when that is a posit), with its sign, whenever FT holds the exact product of two posit fractions and the exponents of a*b and c are not too far apart for the shift.", "quantifier": "every legal template instantiation with such an FT and every triple of finite patterns", "why_tests_cant": "triples of patterns over infinitely many instantiations", "anchors": ["include/posit.h:fma", "include/unpacked.h:fma"]}
{"id": "C64", "title": "Tabulated exp2 truncates 2^x", "statement": "exp2 of a finite posit8 or posit12 x is the posit of largest magnitude whose value does not exceed 2^x, saturating at the largest and smallest positive posit.", "quantifier": "every finite pattern of the two classes", "why_tests_cant": "the exact 2^x is irrational for most x, so a float reference cannot decide the truncation", "anchors": ["include/posit8.hpp:exp2", "include/posit12.hpp:exp2", "src/posit8_tbl.cpp", "src/posit12_tbl.cpp"]}
{"id": "C65", "title": "Order, sign, min and max of posit8", "statement": "Comparisons of finite posit8 numbers are comparisons of their values, std::min and std::max select by value, negation and abs negate and take the absolute value, and NaN is unordered.", "quantifier": "all pairs of finite posit8 patterns and NaN", "why_tests_cant": "every pair must agree with the order of exact values", "anchors": ["include/posit8.hpp:operator<", "include/posit8.hpp:operator-", "include/posit8.hpp:abs"]}
{"id": "C66", "title": "Conversions of posit8", "statement": "A finite posit8 converts to a float of the same value and back to itself, and to an int truncated toward zero; NaN converts to a float NaN and back, and its conversion to int is undefined behaviour.", "quantifier": "every posit8 pattern", "why_tests_cant": "must hold for every pattern against exact values", "anchors": ["include/posit8.hpp:operator float", "include/posit8.hpp:operator int", "src/posit8_tbl.cpp"]}
{"id": "C67", "title": "Conversion between float formats through Unpacked", "statement": "Unpacking a float of one IEEE-style format and packing it into another gives the truncation of its value, infinities and NaN being preserved, with zero and magnitudes below the smallest normal number of a format with denormals giving zero.", "quantifier": "every pair of formats with any legal exponent and fraction width, every pattern, every FT at least as wide as the source fraction and every ET of at least 16 bits", "why_tests_cant": "infinitely many formats and patterns", "anchors": ["include/unpacked.h:unpack_xfloati", "include/unpacked.h:pack_xfloati", "include/floattraits.hpp:any_floattrait"]}
{"id": "C68", "title": "Addition on formats of small range", "statement": "When the exponents of any two finite posits are closer than the shift limit, addition of finite operands is always defined, gives one of the two posits enclosing the exact sum and has its sign; in any format a defined sum is at most one pattern away from the truncated exact sum.", "quantifier": "every legal template instantiation satisfying the stated bounds, every pair of finite patterns", "why_tests_cant": "infinitely many instantiations and pairs", "anchors": ["include/posit.h:operator+", "include/unpacked.h:add"]}
{"id": "C69", "title": "PositF operators", "statement": "Adding, subtracting, multiplying, dividing or inverting posits of the class that computes in float or double gives one of the two posits enclosing the exact result, and the truncated exact result whenever that result is representable in the float type. Special operands follow the IEEE rules: NaN is absorbing, infinity plus a number is infinity, infinity minus infinity, zero times infinity and zero over zero are the exceptional value, a nonzero number over zero is infinity (NaN when the format has no infinity).", "quantifier": "every legal instantiation over float or double whose numbers the float type covers, every pair of patterns including the special ones, every rounding mode", "why_tests_cant": "infinitely many instantiations and rounding modes, and for 32 bit posits too many pairs to enumerate", "anchors": ["include/positf.h:operator*", "include/positf.h:operator/", "include/positf.h:operator+", "include/positf.h:operator-", "include/positf.h:inv"]}
{"id": "C70", "title": "PositF half, twice, construction from int and epsilon", "statement": "half and twice of a PositF and its construction from an int give the truncated exact result; epsilon() is exactly the gap between one and the next posit.", "quantifier": "every legal instantiation over float or double whose numbers the float type covers, every pattern, every int, every rounding mode", "why_tests_cant": "infinitely many instantiations, patterns up to 32 bits", "anchors": ["include/positf.h:half", "include/positf.h:twice", "include/positf.h:PositF(int)", "include/positf.h:epsilon"]}
{"id": "C71", "title": "PositF agrees with Posit", "statement": "The product computed by PositF is the product computed by Posit.", "quantifier": "every instantiation, every pair of finite posits", "why_tests_cant": "infinitely many instantiations, too many pairs", "anchors": ["include/positf.h:operator*", "include/posit.h:operator*"]}
{"id": "C72", "title": "PositF order and predicates", "statement": "The comparisons of PositF are those of the values, NaN being unordered; min and max are those of the values; isinfinity is true exactly for infinities.", "quantifier": "every legal instantiation, every pair of patterns", "why_tests_cant": "infinitely many instantiations, too many pairs", "anchors": ["include/positf.h:operator<", "include/positf.h:isinfinity", "include/positf.h:min"]}
{"id": "C73", "title": "Default rounding of the float types behind PositF", "statement": "In the default mode the float result that PositF converts back is the float nearest to the exact result, of two nearest ones the one with an even pattern, and it overflows only for results at least half a step beyond the largest float; this mode satisfies what C69 to C71 ask of a rounding mode.", "quantifier": "every IEEE-style format, every exact result", "why_tests_cant": "ranges over all rationals", "anchors": ["include/positf.h:operator*", "include/positf.h:operator/"]}
{"id": "C74", "title": "Construction of a small float", "statement": "Constructing an anyfloat_emu from a float or double keeps NaN and infinities, gives zero for numbers below the normal range of the small format and otherwise the number truncated toward zero, the largest number standing for everything beyond it.", "quantifier": "every small format, every float or double pattern", "why_tests_cant": "too many patterns, unboundedly many formats", "anchors": ["include/anyfloat.hpp:anyfloat_emu(float)", "include/anyfloat.hpp:anyfloat_emu(double)"]}
{"id": "C75", "title": "Value of a small float", "statement": "Converting an anyfloat_emu to its implementation type gives the number its bits stand for.", "quantifier": "every small format inside float or double, every pattern", "why_tests_cant": "too many patterns and formats", "anchors": ["include/anyfloat.hpp:operator FFT"]}
{"id": "C76", "title": "Round trip through the implementation type", "statement": "Converting to the implementation type and back keeps every normal number and the infinities, keeps NaN a NaN, and gives zero for subnormal numbers.", "quantifier": "every small format inside float or double, every pattern", "why_tests_cant": "too many patterns and formats", "anchors": ["include/anyfloat.hpp:anyfloat_emu(float)", "include/anyfloat.hpp:operator FFT"]}
{"id": "C77", "title": "Product of small floats", "statement": "The product is the exact product rounded once to the implementation type and truncated to the small format; for the 8 bit and the half format it is the truncation of the exact product, whatever the rounding mode. It is commutative and one is its unit on normal numbers.", "quantifier": "every small format inside float or double, every rounding mode, every pair of patterns", "why_tests_cant": "too many pairs, formats and rounding modes", "anchors": ["include/anyfloat.hpp:operator*"]}
{"id": "C78", "title": "Quotient of small floats", "statement": "The quotient and the inverse are the exact ones rounded once to the implementation type and truncated; for the 8 bit and the half format they are the truncation of the exact quotient, whatever the rounding mode.", "quantifier": "every small format inside float or double, every rounding mode, every pair of patterns", "why_tests_cant": "too many pairs, formats and rounding modes", "anchors": ["include/anyfloat.hpp:operator/", "include/anyfloat.hpp:inv"]}
{"id": "C79", "title": "Sum of small floats", "statement": "The sum and the difference are the exact ones truncated to the small format.", "quantifier": "every small format inside float or double, every rounding mode, every pair of patterns", "why_tests_cant": "too many pairs, formats and rounding modes", "anchors": ["include/anyfloat.hpp:operator+", "include/anyfloat.hpp:operator-"]}
{"id": "C80", "title": "fma, twice and half of small floats", "statement": "fma rounds the product and then the sum to the implementation type and truncates the result; twice and half are the doubled and halved number, truncated.", "quantifier": "every small format inside float or double, every rounding mode, every pattern", "why_tests_cant": "too many triples, formats and rounding modes", "anchors": ["include/anyfloat.hpp:fma", "include/anyfloat.hpp:twice", "include/anyfloat.hpp:half"]}
{"id": "C81", "title": "Order of small floats", "statement": "The six comparisons are those of the numbers, NaN being unordered; min and max pick the operand that is smaller and larger.", "quantifier": "every small format inside float or double, every pair of patterns", "why_tests_cant": "too many pairs and formats", "anchors": ["include/anyfloat.hpp:operator<", "include/anyfloat.hpp:operator==", "include/anyfloat.hpp:min", "include/anyfloat.hpp:max"]}
{"id": "C82", "title": "Sign of small floats", "statement": "Unary minus negates and is an involution, abs is the absolute value, and isnegative is true for negative and false for positive numbers.", "quantifier": "every small format, every pattern", "why_tests_cant": "too many patterns and formats", "anchors": ["include/anyfloat.hpp:operator-", "include/anyfloat.hpp:abs", "include/anyfloat.hpp:isnegative", "include/anyfloat.hpp:iszero"]}
{"id": "C83", "title": "Small float from an int", "statement": "Constructing from an int gives the integer truncated to the format.", "quantifier": "every small format, every int", "why_tests_cant": "too many integers and formats", "anchors": ["include/anyfloat.hpp:anyfloat_emu(int)"]}
{"id": "C84", "title": "Small float to an int", "statement": "Conversion to int gives the integer part of every number below 2^31 in magnitude.", "quantifier": "every small format, every pattern", "why_tests_cant": "too many patterns and formats", "anchors": ["include/anyfloat.hpp:operator int"]}
{"id": "C85", "title": "Constants of small floats", "statement": "one, two, max, lowest, min, the infinities and NaN are what they are named after.", "quantifier": "every small format", "why_tests_cant": "unboundedly many formats", "anchors": ["include/anyfloat.hpp:one", "include/anyfloat.hpp:two", "include/anyfloat.hpp:max", "include/anyfloat.hpp:lowest", "include/anyfloat.hpp:min", "include/anyfloat.hpp:infinity", "include/anyfloat.hpp:NaN"]}
{"id": "C86", "title": "Shipped tables come from the generators", "statement": "The tables shipped for posit8 and posit12 are, entry by entry, what the table writing programs compute, whatever the rounding mode of the machine that ran them.", "quantifier": "every entry, every rounding of float arithmetic, every exp2 that returns a neighbour of 2^x", "why_tests_cant": "the tests never run the generators, and only under one rounding mode and one C library", "anchors": ["src/posit8_gen.cpp", "src/posit12_gen.cpp", "src/posit8_tbl.cpp", "src/posit12_tbl.cpp"]}
{"id": "C87", "title": "posit10 arithmetic", "statement": "+ - * / inv half twice square and exp2 of posit10, whose tables are generated at build time, round as those of the 10 bit es=1 posit; NaN propagates and x/0 is NaN.", "quantifier": "all pairs of patterns, every rounding mode of the machine that builds the tables", "why_tests_cant": "a million pairs, and the tables depend on the build machine", "anchors": ["include/posit10.hpp", "src/posit10.cpp", "src/posit10_gen.cpp"]}
{"id": "C88", "title": "posit10 conversions, order and sign", "statement": "Conversion of posit10 to float is exact and converts back; comparisons, min, max, unary minus and abs are those of the values; NaN is unordered and its own negation.", "quantifier": "all patterns", "why_tests_cant": "too many pairs", "anchors": ["include/posit10.hpp"]}
{"id": "C89", "title": "Tabulated posits from floats, doubles and ints", "statement": "Constructing a posit8, posit10 or posit12 truncates the number, maps zeros to 0 and infinities and NaN to NaN; conversion to int drops the fraction.", "quantifier": "all floats, doubles and ints", "why_tests_cant": "2^64 doubles", "anchors": ["src/posit8.cpp", "src/posit10.cpp", "src/posit12.cpp", "include/posit10.hpp:operator int", "include/posit12.hpp:operator int"]}
{"id": "C90", "title": "posit12 sums, order and sign", "statement": "+ and - of posit12 are defined and give a neighbour of the exact result; comparisons, min, max, unary minus, abs and epsilon are those of the values.", "quantifier": "all pairs of patterns", "why_tests_cant": "16 million pairs", "anchors": ["include/posit12.hpp", "src/posit12.cpp"]}
{"id": "C91", "title": "Sign and magnitude tests of the tabulated classes", "statement": "is_negative tells whether the number is below 0, has_neg_exponent whether its magnitude is below 1.", "quantifier": "all patterns of posit8, posit10, posit12", "why_tests_cant": "wrong answers occur only for one sign", "anchors": ["include/posit8.hpp:has_neg_exponent", "include/posit10.hpp:has_neg_exponent", "include/posit12.hpp:has_neg_exponent"]}
{"id": "C92", "title": "SIMD predicates and conversion", "statement": "is_negative, is_nan, is_infinity, has_neg_exponent, binary minus, twice and the conversion to floats act lane by lane as in posit8.", "quantifier": "all vectors of bytes", "why_tests_cant": "256^32 vectors", "anchors": ["include/simdposit8.hpp"]}
{"id": "C93", "title": "Deferred products", "statement": "With POSITMUL defined, a*b + d*g and a*b - d*g on posits compute the exact value of both products and round once: the result is a posit enclosing the exact value, with its sign.", "quantifier": "all finite a, b, d, g of every instantiation whose fraction type holds exact products", "why_tests_cant": "four operands; errors appear only for zero factors or far apart products", "anchors": ["include/posit.h:PositMul", "include/posit.h:operator+", "include/posit.h:operator-"]}
{"id": "C94", "title": "pseudosoftplus", "statement": "pseudosoftplus(x) is a finite number at least max(0,x), is monotone, and approximates ln(1+exp(x)).", "quantifier": "all finite x of every instantiation", "why_tests_cant": "depends on the holder width, the sign and the special values of every format", "anchors": ["include/posit.h:pseudosoftplus", "include/positf.h:pseudosoftplus"]}
{"id": "C95", "title": "urDeltaPs", "statement": "urDeltaPs(x) is x*(1-x) rounded once.", "quantifier": "all x in [0,1] of every instantiation of Posit and PositF", "why_tests_cant": "the shortcut for 1-x only holds for some exponent sizes", "anchors": ["include/posit.h:urDeltaPs", "include/positf.h:urDeltaPs"]}
{"id": "C96", "title": "Zero, one and sign tests", "statement": "iszero, isone and isnegative hold exactly when the value is 0, is 1, is below 0.", "quantifier": "all finite posits of every instantiation", "why_tests_cant": "all patterns of all formats", "anchors": ["include/posit.h:iszero", "include/posit.h:isone", "include/posit.h:isnegative"]}
{"id": "C97", "title": "Accuracy of pseudosigmoid", "statement": "pseudosigmoid(x) of a format with es=0 differs from 1/(exp(-x)+1) by at most 1/16 plus one unit in the last place.", "quantifier": "all finite x of every instantiation with es=0", "why_tests_cant": "all patterns of formats of every size against a transcendental function", "anchors": ["include/posit.h:pseudosigmoid", "include/positf.h:pseudosigmoid"]}
{"id": "C98", "title": "Conversion between posit formats truncates, keeps order and round trips", "statement": "Building a posit from the unpack() of a posit of another format with the same unpacked type gives the truncation toward zero of its value (saturating), zero, NaN and infinities becoming those of the target; it keeps the order; it is exact when the target has the number, and then converting back gives the original; with the same esbits a wider target appends zeros; and converting through an intermediate format that has all the target's numbers gives what a direct conversion gives.", "quantifier": "every pair (or triple) of legal template instantiations with the same fraction and exponent types, the source's fraction fitting FT, and every pattern", "why_tests_cant": "pairs of formats times all patterns", "anchors": ["include/posit.h:Posit(UnpackedT)", "include/posit.h:unpack", "include/posit.h:pack_posit"]}
{"id": "C99", "title": "Arithmetic of the tabulated 8 bit float", "statement": "For binary8tab (5 exponent and 2 fraction bits) with the tables its generator writes: +, *, /, inv, square and half give the exact result cut toward zero to the format (infinity on overflow, 0 below the least normal number); exp2(x) has no number of the format strictly between it and 2^x; exp2 maps infinity, -infinity and NaN to infinity, 0 and NaN.", "quantifier": "all numbers and pairs of numbers of the class, every rounding mode of float arithmetic in the generator, every faithful exp2", "why_tests_cant": "the rounding mode and exp2 of the machine that generates the tables vary; the tables are not shipped", "anchors": ["include/binary8.hpp:binary8tab", "src/binary8_gen.cpp:main"]}
{"id": "C100", "title": "Sign, subtraction and order of the tabulated 8 bit float", "statement": "For binary8tab: unary minus negates, a-b is a+(-b), comparisons are the order of the numbers, and min and max return the smaller and larger number.", "quantifier": "all numbers and pairs of numbers of the class", "why_tests_cant": "all pairs, every rounding mode of the generator", "anchors": ["include/binary8.hpp:operator-", "include/binary8.hpp:operator<", "include/binary8.hpp:std::min"]}
{"id": "C101", "title": "Conversions and constants of the tabulated 8 bit float", "statement": "For binary8tab: conversion to float and double keeps the number, conversion to int cuts the fraction, abs, is_negative and the constants are what their names say, and a number built from an int, float or double is that number.", "quantifier": "all numbers of the class", "why_tests_cant": "relates bit patterns of three formats for every number; the constructors read memory that was never written, which a test may not notice", "anchors": ["include/binary8.hpp:operator float", "include/binary8.hpp:std::abs", "include/binary8.hpp:std::numeric_limits", "src/binary8.cpp:binary8tab"]}
{"id": "C102", "title": "The replacement for 128 bit integers is an unsigned 128 bit integer", "statement": "On compilers without 128 bit integers, unsigned128 adds and subtracts modulo 2^128, shifts as an unsigned 128 bit number, compares by value, and converts from and to uint64_t.", "quantifier": "all pairs of 128 bit numbers, all shift counts", "why_tests_cant": "2^256 pairs, and the platforms of the test suite have native 128 bit integers so this code is never compiled there", "anchors": ["include/typehelpers.hpp:unsigned128"]}
{"id": "C103", "title": "Unpacked arithmetic with 64 bit fractions does not depend on native 128 bit integers", "statement": "On compilers without 128 bit integers, products, quotients and inverses of unpacked numbers with a 64 bit fraction are the exact result with its fraction cut to 64 bits.", "quantifier": "all pairs of unpacked numbers with 64 bit fractions, all exponent types", "why_tests_cant": "all fractions and exponents, and the code is only compiled on platforms without 128 bit integers", "anchors": ["include/typehelpers.hpp:extramul", "include/typehelpers.hpp:extradiv", "include/unpacked.h:operator*", "include/unpacked.h:operator/", "include/unpacked.h:inv"]}
{"id": "C104", "title": "The listing program lists every posit exactly once in order", "statement": "listposits terminates having visited every real posit exactly once in increasing order of value, or in unsigned order every bit pattern exactly once in increasing unsigned order.", "quantifier": "all posit formats, loops of up to 2^32 rounds", "why_tests_cant": "the loop bounds and the increment after the last pattern depend on the format; only one format is compiled at a time", "anchors": ["src/listposits.cpp:listpositsT", "src/listposits.cpp:SIGNEX"]}
{"id": "C105", "title": "numeric_limits of posits describe the format", "statement": "std::numeric_limits<Posit>: has_infinity and has_quiet_NaN say whether the format has an infinity and a NaN, infinity(), quiet_NaN() and denorm_min() return them and the least positive posit, is_bounded and digits10 are true of the format, min_exponent and max_exponent are the least and the largest n for which 2^(n-1) is a posit.", "quantifier": "all posit formats and all their posits", "why_tests_cant": "every template instantiation; boundedness and digits10 speak of all numbers", "anchors": ["include/posit.h:std::numeric_limits"]}
{"id": "C106", "title": "Vector max, comparison and selection work element by element", "statement": "For every vector class of include/simd: store gives back what was loaded, max gives at each place the greater element and the second one when neither is greater, and cmplt followed by blend replaces exactly the elements at places where the comparison holds.", "quantifier": "all fifteen AVX2 classes, all vectors of their elements including floats with NaN, infinities and zeros of both signs, all places", "why_tests_cant": "2^512 pairs of vectors; unsigned comparisons are put together from signed and saturating instructions", "anchors": ["include/simd/asimd_base.h:_mm256_cmpgt_epu8", "include/simd/asimd_base.h:_mm_cmpgt_epu16", "include/simd/asimd_8.h:simd_u8_32", "include/simd/asimd_16.h:simd_u16_8", "include/simd/asimd_f.h:simd_f_8", "include/simd/asimd_d.h:simd_d_4"]}
{"id": "C107", "title": "Index vectors are blended by the comparison of their own element", "statement": "blendindex with the result of cmplt replaces the index at exactly the places where the comparison of the elements holds.", "quantifier": "all classes with a blendindex, all element and index vectors, all places", "why_tests_cant": "every mask; the mask is narrowed or widened differently in each class and errors show at some places only", "anchors": ["include/simd/asimd_8.h:blendindex", "include/simd/asimd_16.h:blendindex", "include/simd/asimd_32.h:blendindex", "include/simd/asimd_f.h:blendindex", "include/simd/asimd_d.h:blendindex"]}
{"id": "C108", "title": "A running argmax holds the first greatest element and its index", "statement": "Going through a sequence of vectors with cmplt, blend and blendindex, every place ends with the greatest element it has seen and the index that came with its first occurrence.", "quantifier": "all classes with a blendindex, sequences of any length, all elements that are no NaN, all index vectors", "why_tests_cant": "sequences of any length and every order of the elements at each place", "anchors": ["include/simd/asimd_base.h:argmax_along_fit", "include/simd/asimd_32.h:simd_i32_8_a"]}
{"id": "C109", "title": "Strided loads fetch the elements at the stride", "statement": "After initgather with a stride, loadstrided with that stride loads the elements that are that many elements apart, whether the class gathers or copies; initincrement fills an index vector with multiples and += adds place by place.", "quantifier": "all classes, memories, addresses and strides including 1, 0 and negative ones", "why_tests_cant": "all strides and memory contents; large strides wrap in the 32 bit index", "anchors": ["include/simd/asimd_base.h:loadstrided", "include/simd/asimd_base.h:initgather", "include/simd/asimd_32.h:initincrement"]}
{"id": "C110", "title": "The softfloat wrappers compute and compare like IEEE numbers", "statement": "For softfloat16 and softfloat32, sum, difference, product, quotient, square, inv and half are the exact results rounded once, half is exact well above the subnormals, negation flips the sign and undoes itself, the comparisons are those of the values with NaN unordered, and conversions round from float and double, are exact to float and double and for small integers, and come back to the same number.", "quantifier": "both formats, all bit patterns including subnormals, infinities and NaN, all rounding rules that keep representable numbers and the order", "why_tests_cant": "2^64 pairs of operands for the 32 bit format", "anchors": ["include/softfloat.hpp:softfloat16", "include/softfloat.hpp:softfloat32", "include/softfloat.hpp:half", "include/softfloat.hpp:inv"]}
{"id": "C111", "title": "numeric_limits of softfloat32 describe the format", "statement": "max, lowest and min are the greatest, least and least positive normal number, epsilon is the gap after one and denorm_min the one after zero, digits, digits10 and the exponents are those the C++ standard defines.", "quantifier": "all 32 bit floats, which the constants are compared with", "why_tests_cant": "greatest, least and next quantify over every representable number", "anchors": ["include/softfloat.hpp:numeric_limits<softfloat32>", "include/floattraits.hpp:single_trait"]}
{"id": "C112", "title": "singles2halfp rounds every single to the nearest half", "statement": "Converting an array of singles writes for each the nearest half, ties away from zero, infinities from 65520 on, NaN to NaN, the sign of zeros kept, and leaves the rest of the target as it was.", "quantifier": "arrays of any length, all 32 bit patterns", "why_tests_cant": "2^32 patterns and arrays of any length; ties and subnormals are single points among them", "anchors": ["matlab/halfprecision/halfprecision.c:singles2halfp", "matlab/halfprecision/ieeehalfprecision.c:singles2halfp"]}
{"id": "C113", "title": "doubles2halfp rounds every double to the nearest half", "statement": "Converting an array of doubles writes for each the nearest half, ties away from zero, infinities from 65520 on, NaN to NaN, in both byte orders.", "quantifier": "arrays of any length, all 64 bit patterns, both byte orders", "why_tests_cant": "2^64 patterns", "anchors": ["matlab/halfprecision/halfprecision.c:doubles2halfp", "matlab/halfprecision/ieeehalfprecision.c:doubles2halfp"]}
{"id": "C114", "title": "halfp2singles is exact", "statement": "Every half, subnormals, infinities, NaN and signed zeros included, is converted to the single that is the same number.", "quantifier": "arrays of any length, all halves", "why_tests_cant": "arrays of any length and contents", "anchors": ["matlab/halfprecision/halfprecision.c:halfp2singles", "matlab/halfprecision/ieeehalfprecision.c:halfp2singles"]}
{"id": "C115", "title": "halfp2doubles is exact", "statement": "Every half is converted to the double that is the same number, whatever the target held before.", "quantifier": "arrays of any length, all halves, all earlier contents of the target, both byte orders", "why_tests_cant": "the earlier contents of the target are arbitrary", "anchors": ["matlab/halfprecision/halfprecision.c:halfp2doubles", "matlab/halfprecision/ieeehalfprecision.c:halfp2doubles"]}
{"id": "C116", "title": "Halves survive the way through single and double", "statement": "Converting halves to single or double and back gives the same halves; NaN stays NaN.", "quantifier": "arrays of any length, all halves, all earlier contents of the targets", "why_tests_cant": "arrays and earlier contents are arbitrary", "anchors": ["matlab/halfprecision/ieeehalfprecision.c:singles2halfp", "matlab/halfprecision/ieeehalfprecision.c:doubles2halfp", "matlab/halfprecision/ieeehalfprecision.c:halfp2singles", "matlab/halfprecision/ieeehalfprecision.c:halfp2doubles"]}
{"id": "C117", "title": "The half precision routines stay in bounds", "statement": "Each routine is defined exactly when the number of elements is not negative and neither array is shorter; with a null pointer it does nothing.", "quantifier": "all four routines, arrays of any length and contents, all element counts", "why_tests_cant": "undefined behaviour need not show in a test", "anchors": ["matlab/halfprecision/ieeehalfprecision.c:singles2halfp", "matlab/halfprecision/ieeehalfprecision.c:doubles2halfp", "matlab/halfprecision/ieeehalfprecision.c:halfp2singles", "matlab/halfprecision/ieeehalfprecision.c:halfp2doubles"]}
{"id": "C118", "title": "The half precision routines work from C and return 0 on IEEE machines", "statement": "On a machine with IEEE floats the routines of ieeehalfprecision.c return 0 and convert.", "quantifier": "both byte orders, long of 32 and 64 bits, all arguments", "why_tests_cant": "a test runs on one platform", "anchors": ["matlab/halfprecision/ieeehalfprecision.c:singles2halfp", "matlab/halfprecision/ieeehalfprecision.c:doubles2halfp"]}
{"id": "C119", "title": "The MATLAB function halfprecision converts arrays of every class", "statement": "halfprecision(A) gives the halves nearest to the elements of a single, double, integer, logical or char array, the imaginary parts likewise; halfprecision(B,S) gives the exact singles and doubles, and for another class what that class makes of the exact single.", "quantifier": "all arrays, real or complex, of all classes; all integers", "why_tests_cant": "all arrays of all classes", "anchors": ["matlab/halfprecision/halfprecision.c:mexFunction"]}
{"id": "C120", "title": "Alphabets of projective unums are checked, and the named ones can be made", "statement": "Alphabet(points) succeeds exactly if the points are 1 and larger fractions in ascending order, a power of two many; there are eight pnums for each. The alphabets the class offers satisfy this.", "quantifier": "all lists of fractions", "why_tests_cant": "all lists", "anchors": ["scripts/punum.py:Alphabet.__init__", "scripts/punum.py:Alphabet.p8", "scripts/punum.py:Alphabet.p8a"]}
{"id": "C121", "title": "Every number is in exactly one pnum", "statement": "The pnums of an alphabet, points and the open intervals between them, cover the numbers and infinity without overlap.", "quantifier": "all well-formed alphabets, all rational numbers and infinity", "why_tests_cant": "infinitely many alphabets and numbers", "anchors": ["scripts/punum.py:Pnum", "scripts/punum.py:Pnum.exactvalue"]}
{"id": "C122", "title": "Conversion to a pnum finds the one the number is in", "statement": "convert(x) is the pnum that holds x, for floats, integers and fractions; infinities give the infinite pnum and NaN raises.", "quantifier": "all well-formed alphabets, all floats and fractions", "why_tests_cant": "a bisection over alphabets of any size, with numbers at and between all of its points", "anchors": ["scripts/punum.py:Alphabet.convert", "scripts/punum.py:Alphabet._searchvalue"]}
{"id": "C123", "title": "Unary operations and predicates of pnums", "statement": "-p and ~p hold the negatives and reciprocals of the members of p and undo themselves, next and prev are inverse and go upwards, iszero, isinf, isexact, isstrictlynegative, isfractional, abs and exactvalue say of p what holds of each of its members.", "quantifier": "all well-formed alphabets, all pnums, all members", "why_tests_cant": "alphabets of any size and all members of intervals", "anchors": ["scripts/punum.py:Pnum.__neg__", "scripts/punum.py:Pnum.__invert__", "scripts/punum.py:Pnum.abs", "scripts/punum.py:Pnum.isfractional", "scripts/punum.py:Pnum.exactvalue"]}
{"id": "C124", "title": "Sums and differences of pnums contain all sums and nothing else", "statement": "p+q and p-q hold every sum or difference of a member of p and one of q, each of their pnums holds one, and of exact pnums they are a single pnum.", "quantifier": "all well-formed alphabets whose points have sums that are doubles, all pairs of pnums, all members", "why_tests_cant": "all members of intervals, alphabets of any size", "anchors": ["scripts/punum.py:Pnum.slowplus", "scripts/punum.py:Pnum._exactplus"]}
{"id": "C125", "title": "Products of pnums contain all products", "statement": "p*q holds every product of a member of p and one of q, and of exact pnums it is a single pnum.", "quantifier": "all well-formed alphabets, all pairs of pnums, all members", "why_tests_cant": "all members of intervals, alphabets of any size", "anchors": ["scripts/punum.py:Pnum.slowtimes", "scripts/punum.py:Pnum._exacttimes"]}
{"id": "C126", "title": "Bounds of pnums: named bounds, complement, reciprocal, iteration", "statement": "everything, empty, finite, nonzero and one-pnum bounds hold what their names say; complement() holds exactly what the bound does not; ~b holds the reciprocals of the members of b; iter() gives the pnums of the bound once each in order.", "quantifier": "all well-formed alphabets, all bounds, all numbers and infinity", "why_tests_cant": "alphabets of any size, bounds that run through infinity", "anchors": ["scripts/punum.py:Pbound.complement", "scripts/punum.py:Pbound.__invert__", "scripts/punum.py:Pbound.iter", "scripts/punum.py:Pbound.iseverything"]}
{"id": "C127", "title": "Relative error is bounded by the fraction bits of the result's size", "statement": "Where numbers of the size of the exact result have f >= 0 fraction bits, the relative error of a product, quotient, reciprocal, sum, difference, fused multiply-add, conversion from int, from float or from another posit is below 2^-f. A truncated result between the least posit and useed times the largest is within a factor of useed.", "quantifier": "all valid configurations with room in FT for the operation, all finite operands whose operation is defined", "why_tests_cant": "all sizes and esbits, all pairs of operands", "anchors": ["include/posit.h:operator*", "include/posit.h:operator/", "include/posit.h:operator+", "include/posit.h:operator-", "include/posit.h:inv", "include/posit.h:fma", "include/unpacked.h:pack_posit"]}
{"id": "C128", "title": "Close subtraction is exact and only zero operands make zero results", "statement": "a-b is exact for a and b of the same sign within a factor of two of each other; without exponent bits every sum or difference of magnitude at most 1 is exact. a-b is zero only for a equal to b, a*b only for a zero factor, a/b only for a zero a.", "quantifier": "all valid configurations with room in FT, all finite operands", "why_tests_cant": "all sizes and esbits, all pairs of operands", "anchors": ["include/posit.h:operator-", "include/posit.h:operator+", "include/posit.h:operator*"]}
{"id": "C129", "title": "Small integers are exact", "statement": "If numbers of binary exponent e have at least e fraction bits then every integer below 2^(e+1) in magnitude converts exactly, and sums, differences, products and whole quotients of integers are exact while they stay below 2^(e+1).", "quantifier": "all valid configurations with room in FT, all e, all integers", "why_tests_cant": "all sizes and esbits, all integers of the range", "anchors": ["include/posit.h:Posit(int)", "include/posit.h:operator+", "include/posit.h:operator*", "include/posit.h:operator/"]}
{"id": "C130", "title": "Programs stay inside the format", "statement": "Every value a program gets from the constants, conversions from integers, floats and other posit types, and any sequence of operations on what it computed before is a bit pattern of the format. A program that starts from finite values and never divides by zero nor uses inv, twice or next meets only numbers.", "quantifier": "all valid configurations, all programs (sequences of operations of any length over any values)", "why_tests_cant": "all programs and all inputs", "anchors": ["include/posit.h:Posit"]}
{"id": "C131", "title": "Programs run without undefined behaviour", "statement": "Any program built from literals of a posit type, conversions from int (other than INT_MIN), + - * /, min, max, negation, abs, sqrt, inv, half, twice, next and prev runs to the end without executing undefined behaviour.", "quantifier": "all valid configurations with enough fraction and holder bits, all expressions of any depth over any literals", "why_tests_cant": "all programs and all inputs; whether a shift is out of range depends on intermediate results", "anchors": ["include/posit.h:Posit", "include/unpacked.h:operator+"]}
{"id": "C132", "title": "gauss2 is a bell curve", "statement": "For every type it is offered for, gauss2(x, mu, sigma) with sigma other than zero lies in (0, 1], is 1 exactly when x equals mu, depends only on |x - mu| and |sigma|, and does not grow when x moves away from mu or |sigma| shrinks.", "quantifier": "posit8, posit12 and the 32 lane posit8 type, all numbers x, mu, sigma", "why_tests_cant": "all triples of numbers, and pairs of triples for symmetry and monotonicity", "anchors": ["include/simdposit8.hpp:gauss2"]}
{"id": "C133", "title": "Rounding errors of a program without subtraction stay bounded", "statement": "A program of conversions from int, +, * and / over positive numbers, whose results at every step are of a size at which the type keeps f fraction bits, ends within a factor (1 - 2^-f)^n of the exact result, where n counts the roundings on the way; without division the result never exceeds the exact one.", "quantifier": "all valid configurations whose fraction type has the spare bits addition needs, all f >= 1, all expressions of any depth over positive literals", "why_tests_cant": "all programs and all inputs; the errors of the steps compound", "anchors": ["include/posit.h:operator+", "include/posit.h:operator*", "include/posit.h:operator/"]}
{"id": "C134", "title": "Error of running sums and sums of products", "statement": "Adding n numbers (or n products of two numbers) one after the other with + and * gives the exact total up to (1 + 2^-f)^n - 1 times the sum of the absolute values (one power more for products), when every exact intermediate result is of a size at which the type keeps f fraction bits. For non-negative numbers between 2^lo and 2^hi this needs no look at the intermediate results: the sum is defined, never above the exact total, and below it by at most a factor (1 - 2^-f)^n.", "quantifier": "all valid configurations whose fraction type has the spare bits addition needs, lists of any length, all numbers", "why_tests_cant": "lists of every length and content; the errors of the steps compound", "anchors": ["include/posit.h:operator+", "include/posit.h:operator*"]}
{"id": "C135", "title": "dot and fma run without undefined behaviour", "statement": "dot over vectors of numbers, and fma of three numbers, execute no undefined behaviour.", "quantifier": "all valid configurations, vectors of every length and content, all numbers", "why_tests_cant": "vectors of every length; whether a shift is out of range depends on the running sum", "anchors": ["include/posit.h:fma", "include/posit.h:dot", "include/unpacked.h:operator+"]}
{"id": "C136", "title": "Writing a posit to a stream", "statement": "Writing a posit to a stream writes its bit pattern as a decimal number if the stream's base is hexadecimal, its sign, exponent and fraction if it is octal, and the stream's text for its float value otherwise; different posits give different texts, and the base flags of the stream are restored.", "quantifier": "all valid configurations, all patterns, all base flags of the stream, all texts already written", "why_tests_cant": "all patterns of all instantiations and every state of the stream; that texts differ is a statement about pairs", "anchors": ["include/posit.h:operator <<"]}
{"id": "C137", "title": "Writing an unpacked number to a stream", "statement": "Writing an Unpacked writes sign, decimal exponent and the fraction in hexadecimal and binary, or the name of the special value, different numbers give different texts, and the base of the stream is left alone; a PositF is written as its unpacked number.", "quantifier": "all unpacked numbers of all fraction and exponent types, all base flags of the stream", "why_tests_cant": "all exponents and fractions, and pairs of them", "anchors": ["include/unpacked.h:operator<<", "include/positf.h:operator <<", "include/typehelpers.hpp:printableinttype"]}
{"id": "C138", "title": "Writing tabulated posits and vectors to a stream", "statement": "Writing a posit8, posit10, posit12 or binary8tab writes its bit pattern as a number in the base of the stream; writing a vector of integers writes its elements as numbers; the base of the stream is left alone.", "quantifier": "all patterns, all base flags of the stream, all contents of the vectors", "why_tests_cant": "all contents of vectors and all states of the stream", "anchors": ["src/posit8.cpp:operator <<", "src/posit10.cpp:operator <<", "src/posit12.cpp:operator <<", "include/binary8.hpp:operator <<", "include/simdposit8.hpp:operator <<", "include/simd/asimd_base.h:printout"]}
{"id": "C139", "title": "dot, fma and sums of products round once", "statement": "The result of dot, of fma and of a sum of two products is the exact value of the expression rounded (truncated) once to a posit; the order of the elements of a dot product does not matter.", "quantifier": "all valid configurations, vectors of every length and content in every order, all numbers", "why_tests_cant": "vectors of every length and all orders; the running sum must lose no bit in any prefix", "anchors": ["include/posit.h:dot", "include/posit.h:fma", "include/posit.h:operator+(PositMul,PositMul)", "include/unpacked.h:operator+"]}
{"id": "C140", "title": "The pnum table generator lists every pair of operands once, with the right result", "statement": "For each chosen operation validsgentable.py makes a table; for sums and products it has exactly one row, up to exchanging the operands and negating both, for every two exact pnums other than zero and infinity, and the result in each row is the pnum that contains the exact result. The tables of the unary operations and of values are complete and right too.", "quantifier": "all alphabets of fractions, both binary operations, all selections of unary operations, every two exact pnums", "why_tests_cant": "alphabets of every size; completeness and absence of duplicates are statements about all pairs", "anchors": ["scripts/validsgentable.py:main", "scripts/punum.py:Alphabet.convert", "scripts/punum.py:Pnum.exactvalue"]}
{"id": "C141", "title": "Equivalent expressions give the same number", "statement": "b - a is -(a - b); |a * b| is |a| * |b| and |a / b| is |a| / |b|; x + x, twice(x) and x * two() are the same number; half(x) and x / two() are the same number.", "quantifier": "all posit types, all finite a, b (nonzero divisors), x", "why_tests_cant": "compares different code paths (alternating sum, product, bit manipulation of the exponent) over all operand pairs of all types", "anchors": ["include/posit.h:Posit::operator-", "include/posit.h:Posit::twice", "include/posit.h:Posit::half", "include/posit.h:Posit::operator*", "include/posit.h:Posit::operator/", "include/posit.h:Posit::abs"]}
{"id": "C142", "title": "Triangle inequalities and round trips of computed values", "statement": "The computed |a + b| is at most the computed |a| + |b|, and the computed ||a| - |b|| at most the computed |a - b|. (a / b) * b and (a * b) / b never exceed a in magnitude, and inv(inv(x)) is never smaller than x in magnitude.", "quantifier": "all posit types, all finite operands (nonzero divisors) for which the operations are defined", "why_tests_cant": "inequalities between results of two or three roundings, for all operand pairs of all types", "anchors": ["include/posit.h:Posit::operator+", "include/posit.h:Posit::operator-", "include/posit.h:Posit::operator/", "include/posit.h:Posit::inv"]}
{"id": "C143", "title": "A computed midpoint lies between its ends", "statement": "For a <= b the number a + (b - a).half() lies between a and b, and so does (a + b).half().", "quantifier": "all posit types, all finite a <= b for which the operations are defined", "why_tests_cant": "three roundings in a row for all operand pairs of all types", "anchors": ["include/posit.h:Posit::operator+", "include/posit.h:Posit::operator-", "include/posit.h:Posit::half"]}
{"id": "C144", "title": "The AVX-512 vector classes act element by element", "statement": "For the AVX-512 vector classes, what is loaded is stored again, max and cmplt with blend give at each place what the comparison of the two elements there says, cmplt with blendindex chooses the indices the same way, a running argmax over any number of vectors ends at each place with the greatest element and the index given with the first of them, and loadstrided after initgather loads the elements found that many elements apart.", "quantifier": "the three AVX-512 classes (16 ints, 16 floats, 8 doubles), all element patterns (no NaN for argmax), all index vectors, all lengths of the argmax loop, all memory contents and strides", "why_tests_cant": "512 bit inputs, loops of any length, and hardware many test machines lack", "anchors": ["include/simd/asimd_32.h:simd_i32_16", "include/simd/asimd_f.h:simd_f_16", "include/simd/asimd_d.h:simd_d_8", "include/simd/asimd_base.h:initgather", "include/simd/asimd_base.h:loadstrided"]}
{"id": "C145", "title": "An array of vectors acts as one long vector", "statement": "simd_x_a<WT,N> acts as one vector of N times as many elements: load with and without a stride, store, the constructor from one element, max, cmplt with blend, cmplt with blendindex, initincrement and += of its index array, and gather, whose start moves by the stride from one vector to the next.", "quantifier": "every N, the fifteen AVX2 and three AVX-512 classes as WT, all elements, indices, strides (not negative for load) and memory contents", "why_tests_cant": "every array length N and all contents; loops over N", "anchors": ["include/simd/asimd_base.h:simd_x_a", "include/simd/asimd_32.h:simd_i32_8_a"]}
{"id": "C146", "title": "The files the table programs write define the arrays they computed", "statement": "The C++ text posit8_gen, posit10_gen, posit12_gen and binary8_gen write defines, in the namespace and under the types and names the headers declare, exactly the arrays the program computed: every entry is present, at its index, readable as an integer literal of the declared type. The file posit8_gen writes defines the arrays of the shipped posit8_tbl.cpp.", "quantifier": "the four programs, every rounding of float arithmetic, every faithful exp2, every name the implementation gives the type (without newline)", "why_tests_cant": "depends on the rounding mode and the exp2 of the machine the generator runs on; 3 million entries for posit10", "anchors": ["src/posit8_gen.cpp:main", "src/posit10_gen.cpp:main", "src/posit12_gen.cpp:main", "src/binary8_gen.cpp:main", "src/posit8_tbl.cpp", "src/posit12_tbl.cpp", "include/posit8.hpp:posit8ns"]}
{"id": "C147", "title": "The half float table of 2^x is a faithful exponential", "statement": "For every half float x, the table softfloat_gen writes and exp2t of softfloat16 reads holds a half float next to 2^x: no half float lies strictly between the entry and 2^x, subnormal results included; when x is an integer and 2^x is a half float the entry is 2^x; NaN, +infinity and -infinity give NaN, +infinity and 0. The file the program writes defines exactly this array.", "quantifier": "all 65536 half float bit patterns, every rounding of the conversions, every faithful exp2 on floats", "why_tests_cant": "depends on the rounding mode and the exp2 of the machine the generator runs on; the two conversions round twice", "anchors": ["src/softfloat_gen.cpp:main", "tests/testsoftfloat.cpp:exp2t_<softfloat16>", "include/softfloat.hpp:softfloat16"]}
{"id": "C148", "title": "The binary listing loads into a table of all posits", "statement": "The binary listing of the listing program (format Biov) loads with loadpositdump.m into a table with one row for every finite posit, in increasing order, holding its pattern as a signed and as an unsigned number, its value and half the distance of its neighbours (NaN in the first and last row), described by the greatest, least and smallest positive values and the least and greatest resolutions. limittab.m keeps exactly the rows whose value lies within the limits; toindex.m finds the row of a posit from its signed pattern, its unsigned pattern or its value, and fromindex.m gives them back.", "quantifier": "every posit format whose values are doubles and patterns have at most 54 bits, every posit of it, every limit, every rounding of double arithmetic", "why_tests_cant": "ranges over all formats, all posits and all limits; the squared distances of the search vanish only in formats with many exponent bits", "anchors": ["src/listposits.cpp:print1", "src/listposits.cpp:listpositsT", "matlab/loadpositdump.m", "matlab/dump2table.m", "matlab/meandiff.m", "matlab/describetab.m", "matlab/limittab.m", "matlab/toindex.m", "matlab/fromindex.m"]}
{"id": "C149", "title": "The halves in a range", "statement": "halfinrange(mi,ma) returns the bit patterns of exactly the half precision numbers between the limits, both included, each once, in increasing order of their numbers (the two zeros in the order of their patterns), together with the same numbers as doubles. NaN is never among them.", "quantifier": "all pairs of doubles as limits, infinities and NaN included; both byte orders", "why_tests_cant": "ranges over all pairs of limits, 2^128 of them", "anchors": ["matlab/halfinrange.m", "matlab/halfprecision/halfprecision.c:halfp2doubles"]}
{"id": "C150", "title": "The table of halves", "statement": "The table that compareposits.m makes of the half precision numbers between two limits has one row for each of them, in increasing order, holding its number counted from the middle of the table, its bit pattern, its value and, but for the first and last, half the distance of the next greater from the next smaller number; it is described by the greatest and least values, the smallest magnitude other than zero and the least and greatest resolutions.", "quantifier": "all pairs of finite limits with at least three halves between them, every row, every rounding of double arithmetic", "why_tests_cant": "ranges over all pairs of limits and all rows", "anchors": ["matlab/compareposits.m", "matlab/compareposits2.m", "matlab/halfinrange.m", "matlab/dump2table.m", "matlab/describetab.m", "matlab/meandiff.m"]}
{"id": "C151", "title": "The posit nearest to a number, and sums", "statement": "With a table of all the posits of a format, toindex(tab,'float',x) returns the row of the posit nearest to x, the lower one when two are equally near; testfloat11 returns the rows of its two arguments, the sum of their values, the row of the posit nearest to the sum and the difference between the sum and that posit.", "quantifier": "all formats whose values are doubles, all doubles x, all pairs of posits in any of the four addressing modes, every rounding of double arithmetic", "why_tests_cant": "ranges over all doubles, all formats and all pairs of posits", "anchors": ["matlab/testfloat11.m", "matlab/toindex.m", "matlab/fromindex.m"]}
{"id": "C152", "title": "The text listing of the posits", "statement": "The listing program asked for text writes an overview of the format (the sizes of its types, the patterns of infinity and NaN, one half, two, the least and greatest number), the range it lists, a heading naming every column asked for, and then one line for every posit of that range in order, with in each column what was asked for: the pattern as a signed number, as an unsigned number and in bits, the regime, the power of two of the regime, the exponent, the unpacked form, the value; and the same for the inverse, the double and the half of the posit if asked.", "quantifier": "all formats whose values are doubles, all format strings without the letter p, whatever the stream writes for a floating point number", "why_tests_cant": "ranges over all format strings, all formats and all their posits", "anchors": ["src/listposits.cpp main", "src/listposits.cpp print1", "posit.h operator<<", "unpacked.h operator<<"]}
{"id": "C153", "title": "The limits of half precision", "statement": "halfprecisionmax returns the pattern of the greatest finite half and halfprecisionmin that of the smallest positive one; halfprecision turns a double into a finite half exactly when it is less than half a step above the greatest, and into zero exactly when it is less than half of the smallest.", "quantifier": "all halves; all finite doubles", "why_tests_cant": "ranges over all doubles", "anchors": ["matlab/halfprecision/halfprecisionmax.m", "matlab/halfprecision/halfprecisionmin.m", "matlab/halfprecision/halfprecision.c doubles2halfp"]}
{"id": "C154", "title": "The Morton order", "statement": "morton(n) returns the indices of the elements of an array of 2^n rows and columns in Morton order: every element once, the binary digits of the position being those of row and column in turn.", "quantifier": "all n", "why_tests_cant": "ranges over all sizes", "anchors": ["matlab/morton.m morton"]}
{"id": "C155", "title": "Arithmetic on posit arrays in MATLAB", "statement": "p8binop applied to two int8 arrays with as many elements and one of the operators + - * / returns an int8 array of the form of the first, every element of which is the sum, difference, product or quotient of the posits at that place; p8unop with inv returns the inverses; anything else is refused with a message, and no memory outside the arrays is touched.", "quantifier": "all arrays, all elements, all special value settings, all operator texts", "why_tests_cant": "ranges over arrays of every size and content", "anchors": ["matlab/p8binop.cpp mexFunction", "matlab/p8unop.cpp mexFunction"]}
{"id": "C156", "title": "Conversion of posit arrays in MATLAB", "statement": "p8Tofloat converts every element of an int8 array exactly to double, single or half precision, floatTop8 converts every element of such an array to the posit cut toward zero, keeping infinities and NaNs, and converting there and back returns the same array.", "quantifier": "all arrays, all elements, all float classes, all special value settings", "why_tests_cant": "ranges over arrays of every size and over all floats", "anchors": ["matlab/p8Tofloat.cpp mexFunction", "src/floatTop8.cpp mexFunction"]}
{"id": "C157", "title": "Sums of unpacked numbers have a bounded error", "statement": "The sum of two regular unpacked numbers differs from the exact sum by less than two units in the place of the larger operand's last kept fraction bit, and is exact if both are multiples of that unit; u + u equals 2 * u, and u - u is zero; zero is neutral and infinities and NaN propagate.", "quantifier": "every pair of unpacked numbers, every fraction and exponent type", "why_tests_cant": "ranges over all pairs of numbers and all types", "anchors": ["include/unpacked.h operator+", "include/unpacked.h normalized", "tests/testunpacked.cpp Sum"]}
{"id": "C158", "title": "The bit strings of posits", "statement": "A positive posit with regime k, exponent e and fraction f is the bit string 0, regime, e, f, and constructing that number gives that string; one is 001(0)+, two is 010(E=1)(0)*, one half is 001(E=max)(0)*, and the bit after the sign is set exactly for the posits not below one.", "quantifier": "every legal template instantiation Posit<T,totalbits,esbits,FT,spec>, all fields that fill the posit, every positive posit", "why_tests_cant": "ranges over all formats and all field contents", "anchors": ["README.md Value Classes and Posit Encoding", "include/posit.h PositTrait", "include/posit.h pack_posit"]}
{"id": "C159", "title": "The regime of a word", "statement": "extract gives the regime and the size of the regime field of every 32 bit word; for the bits of a posit after its sign it gives the k for which the posit lies between 2^(k 2^es) and 2^((k+1) 2^es).", "quantifier": "every 32 bit word; every positive posit of every format of at most 32 bits", "why_tests_cant": "the test program prints one word; all words and formats are meant", "anchors": ["tests/testregime.cpp extract", "include/bithippop.hpp findbitleftmostC"]}
{"id": "C160", "title": "Float arithmetic on unpacked numbers", "statement": "Floats are read as unpacked numbers, and these are added, subtracted, multiplied and divided. Whenever the exact result of the operation is a float, the operation gives the unpacked number read from that float.", "quantifier": "every float format of at most 64 bits, every fraction type with a few bits more than the float, every pair of floats", "why_tests_cant": "the test program compares a few sums and products of doubles and floats; all pairs of all formats are meant", "anchors": ["include/unpacked.h operator+", "include/unpacked.h operator*", "include/unpacked.h operator/", "include/unpacked.h unpack_xfloati", "tests/testunpacked.cpp"]}
{"id": "C161", "title": "Inverses and doubles of floats read as unpacked numbers", "statement": "A nonzero float read as an unpacked number x has the exponent and sign of the float; 2*x equals x+x, and divided by x it is 2; x.inv() is the inverse of the float, x.inv().inv() is the float and x*x.inv() is 1, up to a few units in the last place of the fraction.", "quantifier": "every float format, every nonzero float, every fraction type that can hold the float", "why_tests_cant": "the test program checks a handful of floats and doubles; every float of every format is meant", "anchors": ["tests/testunpacked.cpp Unpacked Conversions", "include/unpacked.h inv", "include/unpacked.h operator/", "include/unpacked.h unpack_xfloati"]}
{"id": "C162", "title": "High precision sums of products", "statement": "The loop r = r + Unpacked(a[i])*Unpacked(b[i]) over arrays of floats with integer values finds the exact sum of products as long as all products and partial sums are below 2^(F-3), F being the size of the fraction type, and the conversion of r back to a float truncates that sum.", "quantifier": "arrays of every length, every float format, every integer held by its floats, every fraction type with two bits more than the float", "why_tests_cant": "the test program has one array of four numbers; all arrays and lengths are meant", "anchors": ["tests/testunpacked.cpp High Precision Test", "include/unpacked.h operator+", "include/unpacked.h operator*"]}
{"id": "C163", "title": "FLOORDIV rounds the quotient down", "statement": "FLOORDIV(a,b) is the quotient a/b rounded down for every divisor other than zero; the regime that splitting the exponent of a posit gives is its FLOORDIV by 2^es.", "quantifier": "every integer type of at least 8 bits, all dividends and divisors; every posit format, every exponent in its range", "why_tests_cant": "2^128 pairs of 64 bit integers, all template instantiations", "anchors": ["include/unpacked.h:FLOORDIV", "include/posit.h:split_reg_exp"]}
{"id": "C164", "title": "Bit fields in hardware and bits as text", "statement": "bitset_gethw(x,o,n), compiled to the BMI instruction, is the n bit field of x at o and equals the portable bitset_get for every field of at least one bit; bitset_all prints all bits of an integer from the highest to the lowest, bitset_msb<N> the N highest and bitset_lsb<N> the N lowest, so that the former followed by the latter is the whole.", "quantifier": "all integer types of 8 to 64 bits, all integers, offsets and sizes", "why_tests_cant": "the test program prints a few 16 bit fields; which version is used depends on the machine", "anchors": ["include/bithippop.hpp:bitset_gethw", "include/bithippop.hpp:bitset_get", "include/bithippop.hpp:bitset_all", "include/bithippop.hpp:bitset_msb", "include/bithippop.hpp:bitset_lsb", "tests/testbit.cpp"]}
{"id": "C165", "title": "The test case \"Conversions\" holds of every number", "statement": "For every float whose value the posit format holds, zeros and infinities included: unpacking it and packing it again gives an equal float, the posit made from the float equals the posit made from its unpacked form, unpacking that posit gives the same unpacked number, and packing this gives an equal float.", "quantifier": "all posit formats, all float formats, all floats whose value the posit format holds", "why_tests_cant": "the test tries eleven numbers in one format", "anchors": ["tests/testsposit.hpp:Conversions", "tests/testposit.cpp", "include/posit.h:Posit", "include/unpacked.h:Unpacked"]}
{"id": "C166", "title": "Inverting a power of two twice gives it back", "statement": "If x and 1/x are both numbers of the format then x.inv() is 1/x and x.inv().inv() == x, for posits; the same holds of unpacked numbers with fraction zero.", "quantifier": "all posit formats and all their numbers with an inverse in the format; all unpacked formats, signs and exponents", "why_tests_cant": "the test tries 2.0 in one format", "anchors": ["tests/testsposit.hpp", "include/posit.h:inv", "include/unpacked.h:inv"]}
