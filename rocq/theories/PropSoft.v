(** The softfloat wrappers: C110 and C111. *)
From Coq Require Import ZArith QArith Qabs List Lia.
From Verif Require Import Asimd Soft Res CInt Traits Spec SpecFloat SpecAny FloatOps FloatProof FloatProof2 SoftProof SoftProof2.
Open Scope Z_scope.

(** C110. softfloat16 and softfloat32. [rnd eb fb] is the way the library rounds to the floats of eb exponent and fb
    fraction bits; it may be any that satisfies [rounding], for example to nearest even. Negation changes the sign of
    every number, of the infinities too, and is its own inverse. Sum, difference, product and quotient are the exact
    ones, rounded once; the divisor may be any number but negative zero, as the model does not give the sign of a
    quotient by it. *)
Theorem C110_neg s v : 0 <= v < 2 ^ sf_w s ->
  0 <= sf_neg s v < 2 ^ sf_w s /\
  same_ext (ieee_val (sf_eb s) (sf_fb s) (sf_neg s v)) (x_opp (ieee_val (sf_eb s) (sf_fb s) v)) /\ sf_neg s (sf_neg s v) = v.
Proof. exact (neg_w s v). Qed.
Print Assumptions C110_neg.
Theorem C110_arith rnd s a b : (forall eb fb, fmt_ok eb fb -> rounding eb fb (rnd eb fb)) ->
  0 <= a < 2 ^ sf_w s -> 0 <= b < 2 ^ sf_w s ->
  let eb := sf_eb s in let fb := sf_fb s in let V := ieee_val eb fb in let r x := x_round eb fb (rnd eb fb) x in
  same_ext (V (sf_add rnd s a b)) (r (x_add (V a) (V b))) /\
  same_ext (V (sf_sub rnd s a b)) (r (x_add (V a) (x_opp (V b)))) /\
  same_ext (V (sf_mul rnd s a b)) (r (x_mul (V a) (V b))) /\
  same_ext (V (sf_square rnd s a)) (r (x_mul (V a) (V a))) /\
  (b <> 2 ^ (sf_w s - 1) -> same_ext (V (sf_div rnd s a b)) (r (x_div (V a) (V b)))) /\
  (b <> 2 ^ (sf_w s - 1) -> same_ext (V (sf_inv rnd s b)) (r (x_div (FinVal 1) (V b)))).
Proof. exact (fun RN => arith_w rnd RN s a b). Qed.
Print Assumptions C110_arith.
(** half is the half, rounded, and exact for everything of at least twice the least normal number. *)
Theorem C110_half rnd s a : (forall eb fb, fmt_ok eb fb -> rounding eb fb (rnd eb fb)) -> 0 <= a < 2 ^ sf_w s ->
  let eb := sf_eb s in let fb := sf_fb s in let V := ieee_val eb fb in
  same_ext (V (sf_half rnd s a)) (x_round eb fb (rnd eb fb) (x_mul (FinVal (1 # 2)) (V a))) /\
  (forall q, V a = FinVal q -> (2 * least_normal eb <= Qabs q)%Q -> same_ext (V (sf_half rnd s a)) (FinVal (q / 2))).
Proof. exact (fun RN => half_w rnd RN s a). Qed.
Print Assumptions C110_half.
(** Conversions: from int exact up to 2^(fraction bits + 1) and so for zero(), one() and two(); from float and double the
    number rounded; to float and double the same number; and there and back gives the same number. Each softfloat can be
    made from the library's type of the other format. *)
Theorem C110_convert rnd s v b i : (forall eb fb, fmt_ok eb fb -> rounding eb fb (rnd eb fb)) ->
  0 <= v < 2 ^ sf_w s -> 0 <= b < 2 ^ 32 ->
  let eb := sf_eb s in let fb := sf_fb s in let V := ieee_val eb fb in let r x := x_round eb fb (rnd eb fb) x in
  (Z.abs i <= 2 ^ (fb + 1) -> same_ext (V (sf_of_int rnd s i)) (FinVal (inject_Z i))) /\
  same_ext (V (sf_zero rnd s)) (FinVal 0) /\ same_ext (V (sf_one rnd s)) (FinVal 1) /\ same_ext (V (sf_two rnd s)) (FinVal 2) /\
  same_ext (V (sf_of_float rnd s b)) (r (ieee_val 8 23 b)) /\
  (forall d, same_ext (V (sf_of_double rnd s d)) (r (ieee_val 11 52 d))) /\
  same_ext (ieee_val 8 23 (sf_to_float rnd s v)) (V v) /\ same_ext (ieee_val 11 52 (sf_to_double rnd s v)) (V v) /\
  same_ext (V (sf_of_float rnd s (sf_to_float rnd s v))) (V v) /\ same_ext (V (sf_of_double rnd s (sf_to_double rnd s v))) (V v).
Proof. exact (fun RN => convert_w rnd RN s v b i). Qed.
Print Assumptions C110_convert.
Theorem C110_convert_other rnd v w : (forall eb fb, fmt_ok eb fb -> rounding eb fb (rnd eb fb)) -> 0 <= v < 2 ^ 16 ->
  same_ext (ieee_val 8 23 (sf_of_other rnd S32 v)) (ieee_val 5 10 v) /\
  same_ext (ieee_val 5 10 (sf_of_other rnd S16 (sf_of_other rnd S32 v))) (ieee_val 5 10 v) /\
  same_ext (ieee_val 5 10 (sf_of_other rnd S16 w)) (x_round 5 10 (rnd 5 10) (ieee_val 8 23 w)).
Proof. exact (fun RN => other_w rnd RN v w). Qed.
Print Assumptions C110_convert_other.
(** The comparisons are those of the values; a NaN is never equal to, below or above anything. *)
Theorem C110_compare s a b : let A := ieee_val (sf_eb s) (sf_fb s) a in let B := ieee_val (sf_eb s) (sf_fb s) b in
  (sf_eq s a b = true <-> x_eq A B) /\ (sf_lt s a b = true <-> x_lt A B) /\ (sf_gt s a b = true <-> x_lt B A) /\
  (sf_le s a b = true <-> x_lt A B \/ x_eq A B) /\ (sf_ge s a b = true <-> x_lt B A \/ x_eq B A).
Proof. exact (sf_compare s a b). Qed.
Print Assumptions C110_compare.
(** Rounding to nearest even: 1 + 2^-11 is 1, 1.5 * -2 is -3, 1 / 3, half of the least subnormal is 0, inf - inf is NaN,
    1/0 is inf, 0.1 from double. *)
Example C110_ex : (forall eb fb, fmt_ok eb fb -> rounding eb fb (rne eb fb)) /\
  sf_add rne S16 0x3c00 0x1000 = 0x3c00 /\ sf_mul rne S16 0x3e00 0xc000 = 0xc200 /\ sf_div rne S32 0x3f800000 0x40400000 = 0x3eaaaaab /\
  sf_half rne S16 1 = 0 /\ ieee_val 5 10 (sf_sub rne S16 0x7c00 0x7c00) = NaNVal /\ sf_inv rne S16 0 = 0x7c00 /\
  sf_of_double rne S32 0x3fb999999999999a = 0x3dcccccd /\ sf_of_other rne S32 0x3555 = 0x3eaaa000 /\
  sf_lt S16 0xc000 0x8000 = true /\ sf_eq S16 0 0x8000 = true /\ sf_le S32 0x7fc00000 0x7fc00000 = false.
Proof. split; [exact rne_rounding|]. repeat split; vm_compute; reflexivity. Qed.

(** C111. numeric_limits<softfloat32>. Full claim: each constant is what the C++ standard asks of it. max(), lowest() and
    min() are the greatest, the least and the least positive normal number; infinity() and quiet_NaN() are those. Missing:
    min_exponent and max_exponent, which are wrong (refuted below). *)
Theorem C111_constants_partial :
  let finite b q := 0 <= b < 2 ^ 32 /\ ieee_val 8 23 b = FinVal q in
  (exists q, finite sl_max q /\ (forall b' q', finite b' q' -> (q' <= q)%Q)) /\
  (exists q, finite sl_lowest q /\ (forall b' q', finite b' q' -> (q <= q')%Q)) /\
  (exists q, finite sl_min q /\ (q == least_normal 8)%Q /\
     (forall b' q', finite b' q' -> (b' / 2 ^ 23) mod 2 ^ 8 <> 0 -> (q <= Qabs q')%Q)) /\
  ieee_val 8 23 sl_infinity = InfVal false /\ ieee_val 8 23 sl_quiet_NaN = NaNVal.
Proof. exact sl_constants. Qed.
Print Assumptions C111_constants_partial.
(** 1 + epsilon() is the next number after 1, and denorm_min() is the next after 0. *)
Theorem C111_epsilon : exists q, ieee_val 8 23 sl_epsilon = FinVal q /\ is_float 8 23 (1 + q) /\ (0 < q)%Q /\
  forall z, is_float 8 23 z -> (1 < z)%Q -> (1 + q <= z)%Q.
Proof. exact sl_epsilon_ok. Qed.
Print Assumptions C111_epsilon.
Theorem C111_denorm_min : exists q, ieee_val 8 23 sl_denorm_min = FinVal q /\ (0 < q)%Q /\
  forall z, is_float 8 23 z -> (0 < z)%Q -> (q <= z)%Q.
Proof. exact sl_denorm_ok. Qed.
Print Assumptions C111_denorm_min.
(** Every integer of up to digits bits is a float and the one after 2^digits is not; digits10 is the largest with
    10^digits10 at most 2^(digits-1). *)
Theorem C111_digits : (forall i, Z.abs i <= 2 ^ sl_digits -> is_float 8 23 (inject_Z i)) /\ ~ is_float 8 23 (inject_Z (2 ^ sl_digits + 1)) /\
  10 ^ sl_digits10 <= 2 ^ (sl_digits - 1) < 10 ^ (sl_digits10 + 1).
Proof. exact (conj (proj1 sl_digits_ok) (conj (proj2 sl_digits_ok) sl_digits10_ok)). Qed.
Print Assumptions C111_digits.
(** 10^min_exponent10 is the least power of ten that is at least min(), 10^max_exponent10 the greatest at most max(). *)
Theorem C111_exponent10 : exists lo hi, ieee_val 8 23 sl_min = FinVal lo /\ ieee_val 8 23 sl_max = FinVal hi /\
  (10 ^ (sl_min_exponent10 - 1) < lo <= 10 ^ sl_min_exponent10)%Q /\ (10 ^ sl_max_exponent10 <= hi < 10 ^ (sl_max_exponent10 + 1))%Q.
Proof. exact sl_exponent10_ok. Qed.
Print Assumptions C111_exponent10.
(** The standard asks for the least integer such that 2^(min_exponent-1) is normal and the greatest such that
    2^(max_exponent-1) is finite. But 2^(min_exponent-1) is below the least normal number and 2^max_exponent is finite. *)
Theorem C111_exponent_refuted : (pow2 (sl_min_exponent - 1) < least_normal 8)%Q /\ is_float 8 23 (pow2 sl_max_exponent).
Proof. exact (conj (proj2 sl_exponent_bad) (proj1 sl_exponent_bad)). Qed.
Print Assumptions C111_exponent_refuted.
Example C111_ex : ieee_val 8 23 1 <> FinVal 0 /\ (exists q, ieee_val 8 23 sl_min = FinVal q /\ (q == pow2 (-126))%Q) /\ is_float 8 23 (inject_Z 16777215).
Proof.
  split; [vm_compute; discriminate|]. split.
  - eexists. split; [vm_compute; reflexivity|]. vm_compute. reflexivity.
  - exact (proj1 sl_digits_ok 16777215 ltac:(vm_compute; discriminate)).
Qed.
