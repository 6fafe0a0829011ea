# Formal model of cppPosit in Rocq (Coq 8.16)

## 1. What is modelled and how

* `Res.v`, `CInt.v` - outcomes (`Ok` / `UB reason`) and C++ integer arithmetic: fixed width
  types, integral promotion, modular unsigned arithmetic, signed overflow, out of range shift
  counts, shifts of negative numbers and `clz(0)` are *undefined behaviour outcomes*, not totalised.
* `Bits.v` - `include/bithippop.hpp`, `Traits.v` - `include/floattraits.hpp`, `fixedtraits.hpp`,
  `Unpacked.v` - `include/unpacked.h`, `Posit.v` - `include/posit.h`. Every definition cites the
  lines it models. A configuration record `cfg` carries the template parameters
  `(bits of T, totalbits, esbits, bits of FT, spec)`; `valid_cfg` states the `static_assert`s.
* `Spec.v` - the independent specification: the textbook posit value of a bit string (run length of
  the regime, zero padded exponent, fraction) as a rational number, the IEEE value of a bit
  pattern, "largest posit not exceeding" (truncation with saturation), "one of the two neighbours".
  It shares no definition with the model.
* Proof files, then `Prop*.v` files that contain only the property theorems, each closed by
  `exact`, an `Example` showing the hypotheses are satisfiable, and `Print Assumptions`.

All values are exact rationals (`Q`), so no axiom of the real numbers is needed, except for C97 and C94_accuracy_refuted,
which compare posits with exp and ln.

## 2. Plan per property

| id | modelled | proof |
|---|---|---|
| C01-C03 | unpack_low, low2full, full2low, pack_low | arithmetic characterisation of regime runs by log2; list specification equals arithmetic one by induction on the bit list |
| C04-C08 | comparisons, neg, abs | strict monotonicity of the value in the pattern |
| C09 | neg, abs on NaN/Inf | false for totalbits < holder bits: refutation, plus the exact cases where it holds |
| C10, C11 | pack_posit | Galois connection between patterns and the coordinate exponent*2^F+fraction |
| C12, C13 | Unpacked * and /, Posit * and / | integer inequalities on significands, nested truncation |
| C14, C15 | Unpacked +, normalized, Posit + - | same, with the lost bits of the shifted operand |
| C16, C17 | shift counts in + and pack_low | false in general: refutations, and exact conditions under which they hold |
| C18-C22 | special value rules | case analysis; C20 is false for a right NaN operand: refutation |
| C23-C25 | inv | as division; C24 refuted |
| C26, C27 | twice, half | on the regime/exponent pair; C27 refuted at minpos |
| C28 | next, prev | refuted at the ends, proved in between |
| C29, C30 | trait constants | symbolic; C30 refuted for totalbits < holder |
| C31, C32 | fma, dot | C32 by induction on the length; error bound: invariant of the running sum (error, magnitude, exponent) over u_add and u_mul |
| C33-C37 | unpack_xfloati, pack_xfloati, unpack_xfixed, pack_xfixed | arithmetic; C37 refuted |
| C38, C39 | level-1 tricks | linearity of posits with es=0 on [0,1]; refutations for es>0 / narrow holders |
| C40 | min, max, sqrt | sqrt refuted |
| C41, C42 | Unpacked comparison, negation | refuted, with the part that holds |
| C43 | Unpacked * / inv | error bound |
| C44-C47 | bit helpers, De Bruijn clz, float2bits | bit lemmas; finite check over 64 powers of two lifted to all inputs; C45 refuted |
| C48-C51 | tables of posit8, posit12 | tables transcribed; the finite domain is checked in the kernel by vm_compute and lifted to a universally quantified statement |
| C52, C53 | float traits | symbolic in the widths |
| C54, C55 | analyze, numeric_limits | symbolic |
| C56-C58 | corollaries of the truncation characterisation; C58 for opposite signs: what is packed is the difference of both operands cut to the unit of the larger exponent, which is monotone | |
| C59, C60 | SIMD class over lists of lanes, software half conversion | C59 unary minus refuted |
| C61-C63 | identities, division by infinity, fma | C62 refuted; C63 by the error analysis of the unpacked product and sum |
| C64-C66 | posit8/posit12 exp2, order, conversions | finite domain in the kernel; exp2 of posit12 by bounds on logarithms (repeated squaring, proved for any precision); C64 refuted for posit12 below -143, just below 0 and from 128 on, C65 refuted for NaN |
| C67 | float formats through Unpacked | symbolic in both formats |
| C68 | addition when the exponent range is small | bound on exponents, step bound from faithfulness |
| C69-C71 | PositF over IEEE float operations with any rounding | truncation after a monotone rounding is faithful; exact when the result is a float; C69 refuted on overflow and for a-NaN, C71 for long products |
| C72 | PositF comparisons and predicates | monotonicity of the value; refuted for NaN |
| C73 | round to nearest even | the float grid around a number, nearest integer on it |
| C74, C75, C76 | anyfloat_emu conversions | the generic conversion theorem of C67, extended to fraction types narrower than the source; refuted for signalling NaNs, subnormals |
| C77, C78 | anyfloat_emu product, quotient | conversion, one rounding, truncation; exact when the rounding grid has a number between the result and the next small float |
| C79, C80 | anyfloat_emu sum, fma, twice, half | conversion, rounding, truncation; truncation of the exact sum refuted |
| C81, C82 | anyfloat_emu order and sign | comparison of the converted numbers; bits of the sign |
| C83, C84 | anyfloat_emu and int | nested truncation; pack_xfixed as in C37 |
| C85 | anyfloat_emu constants | C52 |
| C86 | the table writing programs, arrays as functions of the index | the loops write each index once (induction); every entry is a conversion, one rounding and a truncation, hence equal to the shipped one, which C48 characterises; exp2 by monotonicity from its promise; exp2 of posit12 also for the exponential rounded to nearest (SpecExp), which is shown to exist |
| C87, C88 | posit10 over the generated arrays | as C86 and C69; exp2 beyond the range of float from the exact reading of subnormals and infinities |
| C89 | constructors and int conversions of the tabulated classes | the generic conversion theorems; truncation of a float |
| C90 | posit12 sums, order | C14, C15, C04 on that format |
| C91, C92 | predicates, SIMD | bit lemmas; lanes by induction; refuted where the code is wrong |
| C93 | `pm_add`, `pm_sub` (PositMul) | exact unpacked products, then the one-rounding sum of C63 |
| C94 | `p_pseudosoftplus` | the shifted pattern is one regime further: coordinates of patterns |
| C97 | `p_pseudosigmoid` against exp | the result is a chord of 1-1/(4x); bounds of exp from 1+x <= exp x |
| C98 | `p_convert`: unpack in one format, pack in another | unpack is exact, pack truncates; truncations to nested sets of numbers compose |
| C99 | Bin8: the loops of the generator fill tables, the class looks entries up | the entry looked up is the one the loops wrote (as C86), then the anyfloat lemmas of C76-C79 |
| C100 | Bin8 `b8_neg`, `b8_sub`, comparisons on the member | member to rank on the number line, checked for the 256 members, then order arithmetic; refuted for most signs |
| C101 | Bin8 conversions, constants, constructors | af_to is exact; constructors read an uninitialised member (refuted) |
| C102 | Wide: unsigned128 as two 64 bit words | word arithmetic with explicit carries; `<` and shifts by 0 refuted |
| C103 | Wide `w_mul`, `w_div`, `w_inv`: the operators of Unpacked with unsigned128 | the 64 bit product and quotient lose everything above the hidden bit: exact iff characterised, refuted otherwise |
| C104 | ListP: both loops with fuel, result None while running | induction on the distance to the last pattern, then order of values |
| C105 | ListP `nl_*`: flags and constants of numeric_limits<Posit> | C29 and case analysis; has_infinity, is_bounded, digits10 and the exponents refuted |
| C106 | Asimd: load, store, max, cmplt, blend of fifteen classes of include/simd on registers of bytes | lanes of a register of lanes; masks as lists of booleans |
| C107 | blendindex | masks narrowed and widened; simd_i16_16, simd_u16_16 and simd_d_2 refuted, four classes have no definition |
| C108 | the loop of cmplt, blend and blendindex over any number of vectors | induction on the vectors seen; the same three classes refuted |
| C109 | initgather, loadstrided, gather, initincrement and += of index vectors | memory as a function from addresses to bytes; strides beyond 32 bit offsets refuted |
| C110 | Soft: constructors, arithmetic, half, inv, square, comparisons and conversions of softfloat16 and softfloat32 | any rounding that satisfies `rounding`; values of floats as in C85 |
| C111 | Soft `sl_*`: constants of numeric_limits<softfloat32> | order of positive patterns; min_exponent and max_exponent refuted |
| C112, C113 | MatHalf `s2h`, `d2h` and the loops over them | fields of the word, the four cases of the exponent, rounding of a cut number; NaN with a low payload refuted |
| C114, C115 | MatHalf `h2s`, `h2d` and the loops | invariant of the normalising loop; target with nonzero low words refuted |
| C116 | C114 and C115 followed by C112 and C113 | a half is its own nearest half |
| C117 | MatHalf: bounds of the loops, all operations of one element | induction over the arrays |
| C118 | MatHalf `check_ieee`, `ieee_routine` | the words of 1.0; LP64 refuted |
| C119 | MatHalf `half_of_array`, `array_of_half` | C112 to C115; monotone rounding of large integers |
| C120 | Punum `alphabet`, `al_*` | power of two counted by its one bits; p8a refuted |
| C121, C122 | Punum `pn_search`, `pn_convert` against `member` of SpecPunum | signed index of a cell, order of the cells, invariant of the bisection; 1/3 refuted |
| C123 | Punum unary operations and predicates | arithmetic of indices modulo 8n |
| C124, C125 | Punum `pn_plus`, `pn_minus`, `pn_times` | ends of the cells, monotone; unbounded pnums, different signs, inexact products refuted |
| C126 | Punum `pb_*` | arcs of the circle; complement of everything, reciprocal of the empty bound refuted |
| C127 | Posit `p_mul` … `p_fma`, conversions | SpecAcc `fracbits`; every number with f fraction bits is a posit, so truncation and faithfulness bound the error |
| C128 | Posit `p_sub`, `p_add`, `p_mul`, `p_div` | exact difference is a multiple of the smaller operand's last place and fits; esbits 0: all posits are multiples of the least |
| C129 | Posit `p_of_int` and arithmetic | integers with at most f+1 significant bits are posits; exact results are returned |
| C130 | all of Posit: constants, conversions, arithmetic, dot, ProdPair, unary operations | inductive set of computable values (`SpecProg.v`); each operation shown to keep patterns, and numbers, by induction over it |
| C131 | the same operations as expressions with an evaluator that propagates undefined behaviour (`SpecProg.v`) | structural induction; each operation shown defined on every pattern (or number) of a format whose exponent range is below max(32, bits of FT); converse by adding the largest and the smallest number; programs with fma, a*b+c*d and dot (`SpecProg2.v`) by mutual induction over programs and vectors on top of C135 |
| C95, C96 | `p_urDeltaPs`, `pf_urDeltaPs`, tests | C38 and C12/C69; order of values |
| C132 | gauss2 (`Gauss.v`) for posit8, posit12 and the 32 lane type, as the composition of the table operations | each step is monotone in magnitude and keeps zero apart, so the composition falls with the distance from mu; exp2 by the truncation results of C48, C64; lanes from C59 |
| C133 | programs of `SpecProg.v` with conversions, +, *, / | induction over the program: each step truncates (C12, C13, C14), which costs one factor 1 - 2^-f by C127; sums take the worse of the two operands, products and quotients multiply the factors |
| C134 | loops over + and * (`run_sum`, `run_dot` in `SpecErr.v`) | induction over the list with one factor 1 + 2^-f per step; for non-negative numbers 2^lo is itself a posit, so no intermediate result falls below it and all sizes in between keep f fraction bits |
| C135 | `p_dot`, `p_fma` | invariant of the running unpacked sum: it is a multiple of the square of the smallest posit, so its exponent is at least that of the smallest product, and at most log2 n (and at most bits of FT - 1, where terms stop counting) above that of the largest; alignment and normalisation shifts are then in range; the bound is exact because k largest products followed by the smallest reach it (and largest, smallest, largest negated when FT has 32 or 64 bits); fma by the extreme products |
| C136 | operator<< of Posit (`Print.v`: a stream is its base flags and its text) | the text is read back by an independent reader of numerals (`SpecPrint.v`); digits by induction on the number of digits; distinctness from C06 and the reader |
| C137 | operator<< of Unpacked and PositF | the fields are separated by blanks and numerals contain none, so equal texts have equal fields |
| C138 | operator<< of posit8, posit10, posit12, binary8tab, __m256i and the integer vectors of include/simd | as C136; vectors by induction on the length |
| C139 | `p_dot`, `p_fma`, `pm_add` | all posits are multiples of the smallest; when the unit of FT at the largest running sum is not above its square, cutting to that unit loses nothing, so products and sums are exact (induction over the vector) and only the final pack rounds; permutation by uniqueness of the rounding |
| C140 | `vt_table`, `vt_main` | every exact pnum has a signed position k, the alphabet index is abs(abs k - n); per index pair the listed positions are compared with all 16 sign and reciprocal choices; rows by the correctness of convert (C122) |
| C141 | +, -, *, /, neg, abs, twice, half of Posit | each side is the truncation of the same number (C12-C14, C26, C27), or sign symmetry (C57) moves the sign |
| C142 | the same | sums of equal signs truncate, sums of opposite signs are faithful and at most the larger operand, which is a posit; truncation is monotone |
| C143 | -, half, + | cases on the signs; close operands of one sign subtract exactly (C128), otherwise the difference is at most the larger operand |
| C144 | Asimd512: simd_i32_16, simd_f_16, simd_d_8 on registers of bytes, masks as numbers | a mask made of booleans gives them back bit by bit; then as C106 to C109 |
| C145 | AsimdA: simd_x_a<WT,N> over the classes of Asimd and Asimd512 | induction on N: each operation on loaded arrays is the load of the elementwise result |
| C146 | GenText: the text the four table programs insert in their output, over the arrays of Gen and Bin8 | SpecGenText reads such a file (one namespace of array definitions with decimal entries); reading inverts writing by induction on entries and arrays; every entry exists and fits its type by the lemmas of C86-C88 and of binary8tab |
| C147 | GenText: the program softfloat_gen and the lookup of testsoftfloat.cpp | half to float is exact (Soft); rounding a faithful float result to a half float is faithful because every half float is a float; the text as for C146 |
| C148 | Dump: the binary branch of listposits and the MATLAB functions that load, describe, limit and search the table; doubles are bit patterns, arithmetic rounds by any rounding | the listed patterns are those of C104; values are exact doubles (C34); extrema by induction on the fold; a posit's neighbours are at most 2^es binary orders apart, so distances are doubles; the search by value needs the squares of distances not to vanish |
| C149 | HalfRange: halfinrange.m; sort is stable insertion by the order of doubles, NaNs last | the conversion to doubles is C119; the sorted list is a permutation and strongly sorted by induction, from a total preorder on numbers |
| C150 | HalfRange: the table of compareposits.m, with dump2table.m and describetab.m of Dump | consecutive rows are consecutive halves because the list holds all halves between the limits; all halves are multiples of 2^-24 below 2^16, so differences are exact |
| C151 | TestSum: testfloat11.m over the searches of Dump | the two posits around a number are multiples of a step that is large against the last bit of the distances, so squared rounded distances order as the distances do, ties included; everything else is farther off by monotonicity of rounding |
| C152 | TextList: the text branch of listposits, written to the streams of Print | every pattern unpacks to a known form, giving regime and exponent by bounds on its value; numerals by Print's lemmas; lines by induction on the format and on the listed patterns of C104; the overview by computation on the stream |
| C153 | Morton `halfprecisionmax`, `halfprecisionmin`, and the conversion of MatHalf | the halves are increasing in their patterns; what rounds to infinity or to 0 from C119 |
| C154 | Morton `morton`: dec2base, columns and bin2dec as lists | the columns are the two leading base 4 digits, for every n; order for n = 2; refuted for all other n |
| C155 | Mex `p8binop`, `p8unop` on arrays with class, dimensions and memory | the loop fills the result with the outcomes of the operators; they are defined for every pattern; refuted cases by the same loop lemma |
| C156 | Mex `p8Tofloat`, `floatTop8` | exact conversion of every pattern; cutting of every float of the three formats, subnormal ones included; round trip |
| C157 | Unpacked `u_add`, `u_mul` | both operands are cut to multiples of one unit, whose sum is exact after normalisation |
| C158 | `value`, `pack_posit`, `p_of_int`, `p_one`, `p_two`, `p_onehalf` | the bits after the sign are written field by field and read back by `value`; patterns are told apart by their bits |
| C159 | tests/testregime.cpp `extract` | the count of leading zeros is the length of the leading run, of the word or of its complement |
| C160 | `u_unpack_xfloati`, `u_add`, `u_sub`, `u_mul`, `u_div` | the operations cut the exact result to some bits (C43, C157); a float is not cut, since a float has fewer bits; a sum of floats that is a float is a sum of multiples of a common unit large enough to lose nothing |
| C161 | `u_unpack_xfloati`, `u_inv`, `u_mul`, `u_add`, `u_div` | the inverse is one divided by the number; the inverse of a float has a fraction above 7, so inverting it again avoids the fractions that are divided badly (C43) |
| C162 | tests/testunpacked.cpp "High Precision Test" | induction over the arrays: the running sum is zero or the unpacked form of an integer; products and sums that are integers below 2^(F-3) are found exactly (C160) |
| C163 | unpacked.h FLOORDIV over every integer type, with promotion and conversion | truncated quotient and remainder against the inequalities that define the floor; negative divisors refuted |
| C164 | bithippop.hpp bitset_gethw (BMI), bitset_all, bitset_msb, bitset_lsb | bit lemmas; induction over the number of bits for the texts |
| C165 | tests/testsposit.hpp test case "Conversions" over float, unpacked and posit conversions | exactness of the conversions of C33 composed; case analysis for zero and the infinities |
| C166 | inv of posits and of unpacked numbers, tests/testsposit.hpp 18-33 | numbers with an inverse in the format are powers of two (divisors of powers of two), then the packing of the negated exponent; integer bounds for the exponent |

## 3. Terms used in the statements

* *Legal template instantiation*: `valid_cfg c` (the static_asserts of posit.h 46-48, integer types of
  8, 16, 32 or 64 bits, an existing exponent type) together with `exp_ok c` (the constant maxexponent()
  fits the type it is computed in; only 32 bit holders with esbits above 25 can break it). Both are in `Cfg.v`.
* `frac_fits`, `mul_fits`, `add_fits` (`Cfg.v`): FT holds the longest posit fraction with 0, 2, 3 (4 when FT has
  at least 32 bits) spare bits. The code does not enforce this. `C12_narrow_refuted`, `C13_narrow_refuted` and
  `C33_narrow_fraction_refuted` show what goes wrong without it.
* `roomy`, `pack_room`, `room`, `near` : shift counts of the packing and of the sum stay below the width of the
  promoted operand. Outside, the program executes an undefined shift, and the model returns `UB ShiftCount`;
  C16 and C17 state exactly when.
* A result `Ok r` says that the evaluation is free of undefined behaviour and yields the pattern `r`.
* Patterns are signed integers of the holder type, as in the code (`v`).

## 4. Modelled, function by function

| file in /repo | model | not covered in that file |
|---|---|---|
| include/bithippop.hpp | `Bits.v` | the compiler intrinsics themselves (their documented meaning is used) |
| include/typehelpers.hpp | `Cfg.v`, `CInt.v` (next type, int_least_bits) | printing helpers |
| include/floattraits.hpp, fixedtraits.hpp | `Traits.v` | float128_trait values beyond those refuted in C52 |
| include/floatconst2bits.hpp | `FConst.v` | |
| include/unpacked.h | `Unpacked.v`, `Print.v` (stream output) | convertfloats (ill-formed when instantiated) |
| include/posit.h | `Posit.v`, `Posit2.v`, `Print.v` (stream output) | |
| include/posit8.hpp, src/posit8.cpp, src/posit8_tbl.cpp | `Tab.v`, `Tbl8.v` | |
| include/posit12.hpp, src/posit12.cpp, src/posit12_tbl.cpp | `Tab.v`, `Tbl12.v` | |
| include/posit10.hpp, src/posit10.cpp | constants in `Tab.v`, the rest in `Gen.v` | |
| src/posit8_gen.cpp, posit10_gen.cpp, posit12_gen.cpp | `Gen.v`, `GenText.v` | opening the file; the compiler reading the C++ text (C146 uses a small reader) |
| src/softfloat_gen.cpp, the exp2t_ of tests/testsoftfloat.cpp | `GenText.v` (over `Soft.v`) | opening the file; the compiler reading the C++ text |
| include/positf.h | `PositF.v`, float arithmetic in `FloatOps.v` | fma, operator*=, unpack_low, unpack_posit, ldexp (ill-formed or undefined when used) |
| include/anyfloat.hpp | `AnyFloat.v` | constructor from UnpackedT, ldexp (ill-formed or undefined when used), output |
| include/simdposit8.hpp, src/simdposit8.cpp | `Tab.v` (lanes as lists), `Gauss.v` (gauss2) | loads and stores |
| include/float16native32.hpp (no F16C) | `Half.v` | the F16C intrinsics |
| include/binary8.hpp, src/binary8.cpp, src/binary8_gen.cpp | `Bin8.v`, `GenText.v` | opening the file; the compiler reading the C++ text (C146 uses a small reader) |
| 128 bit integer replacement, listing program | `Wide.v`, `ListP.v`, `Dump.v` (binary output), `TextList.v` (text output) | help, the letter p |
| include/simd | `Asimd.v`, AVX-512 classes in `Asimd512.v`, simd_x_a in `AsimdA.v` | branches under WITH_AVX512VLBW, see section 7 |
| include/softfloat.hpp | `Soft.v` | rem, sqrt, mulAdd; the SoftFloat library itself |
| matlab/halfprecision | `MatHalf.v` | parsing of the arguments, 'disp' |
| matlab/loadpositdump.m, dump2table.m, meandiff.m, describetab.m, limittab.m, toindex.m, fromindex.m | `Dump.v` | the columns bits, es and what; lists and tables of several rows; reading the file |
| matlab/halfinrange.m; lines 14-15 of compareposits.m and compareposits2.m | `HalfRange.v` | the other columns of the table, the plots |
| matlab/testfloat11.m | `TestSum.v` | the argument omode, which is not used |
| matlab/halfprecision/halfprecisionmax.m, halfprecisionmin.m, matlab/morton.m | `Morton.v` | the checks of the number of arguments |
| matlab/p8binop.cpp, p8unop.cpp, p8Tofloat.cpp, src/floatTop8.cpp | `Mex.v` | the files pass `true` where a value of `PositSpec` is expected and so do not compile; the model takes any value there. Memory of arrays is what mxGetData gives, with interleaved complex numbers; the text of the messages is left out |
| tests/testregime.cpp | `Regime.v` | `extract`; the printing of `main` is left out |
| unpacked.h 40-44 | `FloorDiv.v` | FLOORDIV in the promoted type, division by zero and overflow undefined |
| bithippop.hpp 178-220, 253-269 | `BitHw.v` | the bextr instruction by its manual (byte sized start and length, zero extension), bitsets as the text a stream receives |
| tests/testsposit.hpp 35-71 | `TestConv.v` | one round of the loop of "Conversions", its four requirements; the output is left out |
| tests/testunpacked.cpp 177-190 | `HighPrec.v` | the loop of the test case and the conversion of its result |
| scripts/punum.py | `Punum.v` | alphabets with points that are not fractions, the set class Sopn, text output, methods that name undefined variables |
| scripts/validsgentable.py | `ValidTab.v` | --points (float reciprocals), --pickle and --sparsetab (both raise), the text output |

`Tbl8.v` and `Tbl12.v` are generated from the shipped tables by `tools/mktables.py`, which only re-formats the numbers.

Simplifications, each repeated in the comment of the definition:
* conversion of a float table entry to `float` is modelled by its bit pattern;
* out of range conversion to a signed type is modular, as every supported compiler does (and C++20 requires);
* `>>` of a negative signed number is arithmetic, as every supported compiler does (and C++20 requires).

## 5. Trusted base

* Coq 8.16.1's kernel, including its virtual machine (`vm_compute` is used for finite checks and examples).
* `Print Assumptions` beneath every property theorem except those of `PropReal.v` prints `Closed under the global context`.
  Those of `PropReal.v` (C97_*, C94_accuracy_refuted) list the axioms behind the standard library's real numbers:
  `ClassicalDedekindReals.sig_not_dec`, `ClassicalDedekindReals.sig_forall_dec`, `functional_extensionality_dep`,
  `Classical_Prop.classic`. Elsewhere no axiom is used, not
  even one of the standard library. Libraries used: Coq's standard library only.
* The transcription of the C++ code into Gallina, which the citations allow to be reviewed line by line, and the
  specification files `Spec.v`, `SpecTab.v`, `SpecFloat.v`, `SpecAny.v`, `SpecGen.v`, `SpecGenText.v`, `SpecDump.v`, `SpecRange.v`, `SpecNear.v`, `SpecText.v`, `SpecMorton.v`, `SpecMex.v`, `SpecBits.v`, `SpecHigh.v`, `SpecDot.v`, `SpecBin8.v`, `SpecWide.v`, `SpecSimd.v`, `SpecHalf.v`,
  `SpecPunum.v`, `SpecAcc.v`, `SpecProg.v`, `SpecProg2.v`, `SpecExp.v`, `SpecErr.v` and `SpecPrint.v`.
* `Soft.v`: that the functions of the SoftFloat library are the IEEE-754 operations of `FloatOps.v`.
* `Punum.v`: Python integers are Z and fractions Q, and Python compares fractions with floats exactly.
* `MatHalf.v`: that the elements of MATLAB arrays are laid out as the MEX documentation says and `mxCreateNumericArray` zeroes them;
  access of floats through integer pointers is taken to read and write their bits.
* `Asimd.v` and `Asimd512.v`, first part: the meaning of the processor instructions behind the intrinsics, after the processor's manual, and
  that compilers convert between vector types of one size without changing bits.
* `SpecGen.v`, `exp2_float`: what is assumed of the C library's `exp2` on floats when the tables are generated (a
  hypothesis of the theorems, met by the function `ex_floor` of `GenProof4.v`).
* `FloatOps.v`: the C++ types float and double compute the IEEE-754 operation rounded to their own format (no excess
  precision, no fast-math); the sign of a zero result is left out because no conversion of the headers looks at it.
* The reading of the C++ standard in `CInt.v`: integral promotion, usual arithmetic conversions, what is undefined.

## 6. Findings

Each is a theorem about the model ending in `_refuted`, or is stated in the theorem named.

* C09 negation of NaN leaves the format when totalbits is smaller than the holder; C30 onehalf() is then not 1/2.
* C12/C13 with an FT narrower than the fraction 1*x is not x and 1/(129/128) is 1/2; C43 the same for unpacked quotients.
* C23 WithNanInf: inv of the smallest posits is infinite although 1/x is finite; C26 so is twice of the largest when esbits is 0.
* C33 an 8 bit exponent type makes the double 2.0 a zero posit; a subnormal float whose set bits FT does not keep is 0.
  C35 packing a huge exponent into a float gives 0; in 32 and 64 bit formats without denormals a tiny negative number
  packs to the least negative denormal, and numbers tinier still shift out of range.
* C16/C17 sum of numbers whose exponents differ by max(32, bits of FT) or more, and packing into a 32 bit posit in a
  32 bit holder, shift by too much (undefined behaviour).
* C20 a NaN right operand of + - * / is ignored. C62 a finite number divided by an infinity is an infinity.
* C24 inv(0) is 0. C27 half(minpos) is 0. C28 next and prev at the ends of the range.
* C37 (int) of 1.0 is undefined behaviour in the generic class.
* C38/C39 urOneMinus is wrong for esbits > 0, pseudosigmoid for negative numbers.
* C40 std::sqrt is the absolute value. C41 `!=` of unpacked numbers is `==`. C42 unary minus of special unpacked values.
* C45 offset of bitset_part. C54 analyze undefined for some patterns.
* C49 posit8 and the generic template differ (NaN on the right, sums of opposite sign, half of the smallest numbers).
* C50 posit8::two() is 1.25; posit8 is_infinity holds of NaN; posit12 and posit10 onehalf() is 1/16 and their infinities
  are finite numbers; posit10::max() is not the largest number; the negation of the posit12 NaN is not a NaN.
* C59 SIMD unary minus is the absolute value, so a-b is a+|b|; half and twice use 1.25 for 2.
* C60 float16nto32 returns the bit pattern of the float converted to float.
* C64 the posit12 exp2 table is 0 up to -143, NaN from 128 on although the largest posit12 is 2^40, and 1 for
  -2^-25 <= x < 0. C86 that table depends on how the exp2 of the machine rounds. C65 posit8 comparisons order NaN.
* C69 PositF over float: maxpos*maxpos of a 16 bit es=3 posit is NaN; a-NaN is undefined or leaves the format when T has
  spare bits. C71 over double a 32 bit es=2 product is rounded up where Posit truncates. C72 NaN is equal to itself and
  below every number, isinfinity(NaN) holds in formats without infinity.
* C74 a signalling float NaN becomes an infinity in small formats; binary32_emu of a subnormal double shifts out of range.
  C75/C81 subnormals of binary16alt_emu count as zero. C77 products saturate at the largest number but become infinite
  once the implementation type overflows. C79 the sum 65504 - 2^-14 of half floats is 65504. C82 iszero is false for -0.
  C84 (int) of 1.0 is undefined behaviour.
* C87 exp2 of posit10 is 0 for arguments of -143 and below, and NaN from 128 on when exp2 of the generating machine
  overflows there. C89 the tabulated classes negate the int argument first: undefined for the least int.
* C88 posit10 orders NaN and negates it to 512, which is no pattern. C90 sums of far apart posit12 shift out of range.
* C91 has_neg_exponent of posit8 tests the sign; of posit10 and posit12 it is wrong for negative numbers. C92 SIMD
  is_infinity holds of the largest number.
* C93 with POSITMUL, a zero product after a minus sign counts as 1. C94 pseudosoftplus is 2^2^es times x for x >= 1 (the
  comment says ln(1+exp(x))), infinite at the largest number of formats with infinities and not a nonnegative number for
  negative x unless holder and posit have 32 bits. C95 urDeltaPs is wrong for es > 0.
* C99 binary8tab: 57344 - 2^-16 is 57344. C100 its unary minus is right for 0, -0, 2 and -2 only, so 1-1 is -3; two
  negative numbers compare the wrong way round, -0 < 0 and a NaN equals itself. C101 epsilon is -5/2; the constructors
  from int, float and double leave the number uninitialised.
* C102 unsigned128: `<` asks both halves to be smaller and is false of 100 < 700; shifting by 0 is undefined. C103 with it every
  product, quotient and inverse of unpacked numbers has fraction 0: 3*3 is 4, 3/2 is 1, 1/3 is 1/4.
* C104 listposits overflows its counter after the last posit when the holder has 32 or more bits and no spare one; in
  unsigned order it lists nothing for 31 bits and is undefined for 32.
* C105 has_infinity is true of formats without infinity, is_bounded is false, and digits10 promises digits that are lost
  (513 is 512 as a 16 bit posit).
* C105 min_exponent and max_exponent are the exponents of the least and largest posit; the C++ standard's definition (2^(n-1) representable) gives one more for both
* C107/C108 blendindex of simd_i16_16 and simd_u16_16 shifts the mask by 6 bytes where 8 are meant, so places 4 to 7 and 12 to
  15 follow the comparison of the place before; simd_d_2 shuffles with 0x44 where 0x88 is meant, so the first comparison
  decides for both places. A running argmax over these classes returns wrong indices. simd_u8_16, simd_i8_16, simd_u16_8 and
  simd_i16_8 declare blendindex without defining it. C109 with a stride of 2^30 ints every gathered element is the first.
* C111 numeric_limits<softfloat32> gives min_exponent -126 and max_exponent 127; the standard asks for -125 and 128, as
  2^(min_exponent-1) must be normal and 2^(max_exponent-1) is the last finite power.
* C113 doubles2halfp looks at the upper word only, so a NaN with its payload in the lower word, as 0x7FF0000000000001, becomes
  an infinity. C115 halfp2doubles does not write the lower words of the doubles; unless the caller zeroed them the result is not
  the half. C118 ieeehalfprecision.c uses long for 32 bit words; where long has 64 bits every routine returns 1 and
  converts nothing.
* punum.py: C120 the alphabet p8a raises, its numbers are not in order (p16a is built the same way). C122 fractions are rounded to
  a double before the search, so with the alphabet 1, 3 the number 1/3 lands beside its own pnum, and C125 so does 1/3 * 1. C124 the
  sum of the two unbounded pnums is only the negative one of them; where the upper end of a sum is excluded the bound ends
  with the pnum after it, as next() stands where prev() is meant. C125 products of different signs swap the ends of their own
  factor instead of the other one's and miss products: (1,2) * (-2,-1) has no -3/2. C126 iseverything compares object
  identities and is false, so the complement of everything is everything; the reciprocal of the empty bound is infinity. Not
  modelled: `/` is undefined in Python 3 (`__div__`), minus of a Pbound, slowsquare and slowtwice raise NameError.
* validsgentable.py: C140 the rows for 1/e and -1/e are left out for every number e of the alphabet above 1 (the list for i = j has
  (a,-a) but not (ia,-ia)). Every choice of --op1 other than "float", and so the default, raises: `/` is undefined for Pnum in
  Python 3, products are Pbound objects without exactvalue, math is not imported. --p3 and --p5 name alphabets that do not
  exist.
* C135 dot and fma shift out of range when a product and the rest of the sum are max(32, bits of FT) binary orders apart; in the
  6 bit type with one exponent bit and 32 bit FT max*max + min*min does.
* C136-C138 A posit held in 8 bits is written to a hexadecimal stream as the character with that code (posit.h 577 writes v, an
  int8_t, without `printableinttype`), so is every binary8tab (binary8.hpp 171). With no base flag set a posit is not written
  at all. Writing an Unpacked, a PositF or an __m256i leaves the stream decimal whatever it was before. Posits of 32 bits
  that differ below the float fraction are written alike in decimal mode.
* C139 With FT as wide as the holder dot is not a single rounding: in posit8 (126,126), (1,1), (-126,126) gives 0, and 1 with the
  last two swapped.
* C141 half of the smallest positive number is 0, while dividing it by two gives it back. twice of the largest number of a WithNanInf
  type without exponent bits is infinity, while x + x and x * two() saturate.
* C142 a quotient or product below the smallest positive number is rounded up to it, so (a / b) * b can exceed a by orders of magnitude:
  in posit8 (minpos / max) * max is 1 where minpos is 1/64.
* C143 half of a + b can lie below both: in posit8 half of x + x for x = 33/32 is 1.
* C144 simd_i32_16 with a stride of 2^30 ints gathers the first element sixteen times.
* C145 simd_x_a inherits the wrong index blending of C107.
* C148 the column of unsigned patterns of the listing holds the signed ones for holders of 16 or more bits (`pt` in print1 is the signed
  type) and patterns extended to 8 bits for formats of fewer than 8. toindex.m searches a value by squared distances, which vanish
  when the format has many exponent bits: among 11 bit posits with 6 exponent bits it does not find the smallest positive one.
* C150 both zeros have a row in the table of halves and count as neighbours of one another: their resolution is half of what it is, and
  the least resolution of the table is 2^-25.
* gauss2: C132 in the SIMD type it is written for it is never below 1 (the unary minus takes absolute values, so the exponent is
  positive and the difference is x + |mu|). In posit12 it executes an out of range shift when x and mu are far apart, is 0 far
  from mu and 1 next to it. In posit8 it is right.
* C151 toindex.m asked for a number far beyond the greatest posit (2^1000, for instance) gives the row of the most negative posit: all
  squared distances overflow to the same infinity and the first one wins. testfloat11.m adds in double, so the "exact" sum and error
  it shows are rounded for formats as wide as 16 bits with one exponent bit.
* C152 the text listing shows for the letter o the signed pattern again (or, for formats of fewer than 8 bits, the pattern extended to 8
  bits), and gives that column no name, so that the heading is shifted against the lines. The overview of a format with NaN and no infinity
  announces two infinities and shows the pattern of NaN for both. X(POSIT_HALF), X(POSIT_TWO), X(POSIT_MINNEG) and X(POSIT_MAXPOS) convert the
  patterns as integers: the "half" shown is never below 1, and the least and greatest number are right only for esbits 0 in general.
* C154 morton.m only looks at the two leading base 4 digits. For n of 3 and more every index it returns is in the first four rows and columns
  and is repeated 4^(n-2) times; for n of 0 and 1 there is no second digit and it stops with an error. Only for n = 2, its example, it is right.
* C155 p8binop sizes its result by the dimensions of the first array and the kind of the second: a complex array and a real one with twice
  as many elements make it write beyond the end. For an unknown operator p8binop and p8unop return memory that was never written. An empty
  operator text is read beyond its end. With one output the number of arguments is never checked (`nrhs != 3 && nlhs != 1`), so too few
  arguments are read beyond their end. The inverse of 0 is 0 and that of an infinity is the infinity, as in C24.
* C156 floatTop8 makes an infinity of a NaN whose upper 16 fraction bits are 0, and 0 of numbers below 2^-142 (single) or 2^-1038 (double), where
  other small numbers become the least posit.
* listposits.cpp uses `posit_formatter`, which nothing in the repository defines, so the program does not compile as it stands;
  C104, C148 and C152 are about it without that line.
* C157 The sum of unpacked numbers drops the two lowest bits of both fractions, so that u + u is less than 2u if they are set. With 32 or 64 bit
  fractions a difference of exactly one unit shifts by the whole width, and so do exponents that are too far apart. 1 + NaN is 1.
* C158 The README gives 001(0)+ as the pattern of one. That pattern is 2^(-2^es); one is 01(0)+, as the code has it.
* C160 A zero read from a float keeps the exponent field of the float, so `x - 0` for x = 8.0 turns the zero into a tiny number (C42) and shifts its fraction by more than 64 bits: undefined.
* C161 With 8 bit fractions the inverse of the inverse of 127.5 is 64: the quotient of C43 that is half of what it should be is met by a float.
* C163 FLOORDIV is off by one for every inexact division by a negative number: FLOORDIV(7,-2) is -3 and FLOORDIV(-7,-2) is 2. The library divides by powers of two only.
* C164 bitset_get with a size of zero is undefined for 32 and 64 bit types (shift by the width in bitmask), while its BMI version gives zero; bitset_msb<T,0> is undefined for the same reason.
* C165 the test case "Conversions" lists INFINITY, but its own format (28 bits, WithNan) has no infinity: the posit is NaN, which differs from itself, so three of the four requirements are false. In formats with one infinity, positive infinity comes back as negative infinity.
* C166 inv() of the largest posit of a format that fills its 32 bit holder shifts by 32 bits (undefined), although the inverse is the smallest posit.
* C166 inv() of an unpacked number with the lowest exponent of a 32 or 64 bit exponent type negates that exponent, a signed overflow.

## 7. Not modelled

`tposit.hpp`, `exp2.hpp`, `exp2t.hpp`, `float2posit.hpp`, `float12.hpp`, `tvalids.hpp` (do not compile as they stand),
`convertfloats` and `float128_trait` (ill-formed), the code of typehelpers.hpp under `#if 0` and `_MSVC_VER` (a macro
no compiler defines), the branches of include/simd under WITH_AVX512VLBW (a macro no header defines), `nonsimd`, `simd_d_4_a` and `argmax_along_fit` (they do not
compile when used), `posit_formatter` (used by listposits.cpp for the letter p, defined nowhere), `setBits` (commented out), `ldexp` (declared only), the Python scripts other than punum.py and validsgentable.py, the formatting of floating point numbers by iostreams, Eigen
glue, rem, sqrt and mulAdd of the softfloat wrappers, libm.
