(** Tabulated classes posit8, posit10 and posit12, the SIMD class over posit8, software half floats. *)
From Coq Require Import ZArith QArith Qabs Qminmax List Bool.
From Verif Require Import Res CInt Traits Unpacked Cfg Posit Configs Spec SpecTab Tab Half Examples
  TabProof TabProof2 TabProof3 TabProof4 TabProof5 HalfProof.
Import ListNotations.
Open Scope Z_scope.

(** C48. The posit8 tables (posit8 has totalbits 8, esbits 0, WithNan): [p8] here only names that format. *)
Theorem C48_add a b : real p8 a -> real p8 b ->
  exists r, t8_add a b = Ok r /\ rounds_tz p8 (value p8 a + value p8 b) r.
Proof. exact (t8_add_rounds a b). Qed.
Print Assumptions C48_add.
Theorem C48_sub a b : real p8 a -> real p8 b ->
  exists r, t8_sub a b = Ok r /\ rounds_tz p8 (value p8 a - value p8 b) r.
Proof. exact (t8_sub_rounds a b). Qed.
Print Assumptions C48_sub.
Theorem C48_mul a b : real p8 a -> real p8 b ->
  exists r, t8_mul a b = Ok r /\ rounds_tz p8 (value p8 a * value p8 b) r.
Proof. exact (t8_mul_rounds a b). Qed.
Print Assumptions C48_mul.
Theorem C48_div a b : real p8 a -> real p8 b -> b <> 0 ->
  exists r, t8_div a b = Ok r /\ rounds_tz p8 (value p8 a / value p8 b) r.
Proof. exact (t8_div_rounds a b). Qed.
Print Assumptions C48_div.
Theorem C48_div_zero a : pattern p8 a -> t8_div a 0 = Ok (exceptional p8).
Proof. exact (t8_div_zero a). Qed.
Print Assumptions C48_div_zero.
Theorem C48_inv v : real p8 v -> v <> 0 -> exists r, t8_inv v = Ok r /\ rounds_tz p8 (/ value p8 v) r.
Proof. exact (t8_inv_rounds v). Qed.
Print Assumptions C48_inv.
Theorem C48_half v : real p8 v -> exists r, t8_half v = Ok r /\ rounds_tz p8 (value p8 v / 2) r.
Proof. exact (t8_half_rounds v). Qed.
Print Assumptions C48_half.
Theorem C48_twice v : real p8 v -> exists r, t8_twice v = Ok r /\ rounds_tz p8 (2 * value p8 v) r.
Proof. exact (t8_twice_rounds v). Qed.
Print Assumptions C48_twice.
Theorem C48_square v : real p8 v -> exists r, t8_square v = Ok r /\ rounds_tz p8 (value p8 v * value p8 v) r.
Proof. exact (t8_square_rounds v). Qed.
Print Assumptions C48_square.
Theorem C48_nan a b : pattern p8 a -> pattern p8 b -> is_nan p8 a \/ is_nan p8 b ->
  t8_add a b = Ok (exceptional p8) /\ t8_mul a b = Ok (exceptional p8) /\ t8_div a b = Ok (exceptional p8) /\
  t8_sub a b = Ok (exceptional p8).
Proof. exact (t8_nan_any a b). Qed.
Print Assumptions C48_nan.
Theorem C48_unary_nan : t8_inv (exceptional p8) = Ok (exceptional p8) /\ t8_half (exceptional p8) = Ok (exceptional p8) /\
  t8_twice (exceptional p8) = Ok (exceptional p8) /\ t8_square (exceptional p8) = Ok (exceptional p8) /\
  t8_exp2 (exceptional p8) = Ok (exceptional p8) /\ t8_neg (exceptional p8) = exceptional p8.
Proof. exact t8_unary_nan. Qed.
Print Assumptions C48_unary_nan.
(** The reciprocal of zero is zero, not NaN. *)
Theorem C48_inv_zero : t8_inv 0 = Ok 0.
Proof. exact t8_inv_zero. Qed.
Print Assumptions C48_inv_zero.
Example C48_ex : real p8 100 /\ real p8 (-37) /\ pattern p8 (-128) /\ is_nan p8 (-128) /\ -37 <> 0 /\
  t8_add 100 (-37) = Ok 93 /\ t8_mul 100 (-37) = Ok (-78) /\ t8_div 100 (-37) = Ok (-112) /\ t8_inv (-37) = Ok (-87).
Proof. ex. Qed.

(** C49. Agreement with the generic template. Full claim: + * / agree on every pair. Missing: NaN as right
    operand of the generic operators, sums of operands of opposite sign (one step at most), half of the
    smallest numbers. *)
Theorem C49_mul_partial a b : pattern p8 a -> real p8 b -> p_mul p8 a b = t8_mul a b.
Proof. exact (agree8_mul a b). Qed.
Print Assumptions C49_mul_partial.
Theorem C49_div_partial a b : pattern p8 a -> real p8 b -> p_div p8 a b = t8_div a b.
Proof. exact (agree8_div a b). Qed.
Print Assumptions C49_div_partial.
Theorem C49_add_partial a b : real p8 a -> real p8 b -> same_sign a b \/ a = 0 \/ b = 0 -> p_add p8 a b = t8_add a b.
Proof. exact (agree8_add_same a b). Qed.
Print Assumptions C49_add_partial.
Theorem C49_add_step a b : real p8 a -> real p8 b ->
  exists r s, p_add p8 a b = Ok r /\ t8_add a b = Ok s /\ Z.abs (s - r) <= 1.
Proof. exact (agree8_add_step a b). Qed.
Print Assumptions C49_add_step.
Theorem C49_unary v : pattern p8 v ->
  p_inv p8 v = t8_inv v /\ p_twice p8 v = t8_twice v /\ p_mul p8 v v = t8_square v /\
  p_neg p8 v = Ok (t8_neg v) /\ p_abs p8 v = Ok (t8_abs v) /\
  (v <> 1 -> v <> -1 -> p_half p8 v = t8_half v) /\
  isNaN p8 v = t8_is_nan v.
Proof. exact (agree8_unary v). Qed.
Print Assumptions C49_unary.
Theorem C49_nan_refuted a : real p8 a ->
  t8_mul a (exceptional p8) = Ok (exceptional p8) /\ t8_div a (exceptional p8) = Ok (exceptional p8) /\
  p_mul p8 a (exceptional p8) <> Ok (exceptional p8) /\ p_div p8 a (exceptional p8) <> Ok (exceptional p8).
Proof. exact (differ8_nan a). Qed.
Print Assumptions C49_nan_refuted.
Theorem C49_add_refuted : exists a b, real p8 a /\ real p8 b /\ p_add p8 a b <> t8_add a b.
Proof. exact differ8_add. Qed.
Print Assumptions C49_add_refuted.
Theorem C49_half_refuted : p_half p8 1 = Ok 0 /\ t8_half 1 = Ok 1 /\ p_half p8 (-1) = Ok 0 /\ t8_half (-1) = Ok (-1).
Proof. exact differ8_half. Qed.
Print Assumptions C49_half_refuted.
Example C49_ex : pattern p8 (-128) /\ real p8 (-37) /\ real p8 100 /\ real p8 77 /\ same_sign 100 77 /\
  p_mul p8 100 (-37) = Ok (-78) /\ p_add p8 100 77 = Ok 111.
Proof. ex. Qed.

(** C50. Constants and predicates. Full claim: every constant denotes what it names. Missing (refuted):
    posit8::two and is_infinity, posit12::onehalf, pinfinity, is_infinity, posit10::onehalf, max,
    pinfinity, is_infinity; the negation of the posit12 NaN. *)
Theorem C50_posit8_partial : (value p8 t8_one == 1)%Q /\ (value p8 t8_onehalf == 1 # 2)%Q /\
  t8_max = maxreal p8 /\ t8_min = 1 /\ is_nan p8 t8_nan /\ t8_pinfinity = inf_of p8 false /\ t8_ninfinity = inf_of p8 true.
Proof. exact t8_constants. Qed.
Print Assumptions C50_posit8_partial.
Theorem C50_posit8_is_nan v : t8_is_nan v = true <-> is_nan p8 v.
Proof. exact (t8_isnan v). Qed.
Print Assumptions C50_posit8_is_nan.
Theorem C50_posit8_epsilon : exists e, t8_epsilon = Ok e /\ (value p8 e == value p8 t8_afterone - value p8 t8_one)%Q /\ (value p8 e == 1 # 32)%Q.
Proof. exact t8_eps. Qed.
Print Assumptions C50_posit8_epsilon.
Theorem C50_posit12_partial : (value p12 t12_one == 1)%Q /\ t12_max = maxreal p12 /\ t12_min = 1 /\ is_nan p12 t12_nan /\
  (forall v, t12_is_nan v = true <-> is_nan p12 v).
Proof. exact t12_constants. Qed.
Print Assumptions C50_posit12_partial.
Theorem C50_posit10_partial : (value t10 t10_one == 1)%Q /\ (value t10 t10_two == 2)%Q /\ t10_min = 1 /\ is_nan t10 t10_nan /\
  (forall v, t10_is_nan v = true <-> is_nan t10 v).
Proof. exact t10_constants. Qed.
Print Assumptions C50_posit10_partial.
Theorem C50_posit8_two_refuted : (value p8 t8_two == 5 # 4)%Q /\ ~ (value p8 t8_two == 2)%Q.
Proof. exact t8_two_refuted. Qed.
Print Assumptions C50_posit8_two_refuted.
Theorem C50_posit8_is_infinity_refuted : t8_is_infinity (exceptional p8) = true /\ is_nan p8 (exceptional p8) /\ forall v, ~ is_inf p8 v.
Proof. exact t8_isinf_refuted. Qed.
Print Assumptions C50_posit8_is_infinity_refuted.
Theorem C50_posit12_refuted : ~ (value p12 t12_onehalf == 1 # 2)%Q /\
  real p12 t12_pinfinity /\ real p12 t12_ninfinity /\ t12_is_infinity (maxreal p12) = true.
Proof. exact t12_refuted. Qed.
Print Assumptions C50_posit12_refuted.
Theorem C50_posit10_refuted : ~ (value t10 t10_onehalf == 1 # 2)%Q /\ (value t10 t10_max < value t10 (maxreal t10))%Q /\
  real t10 t10_pinfinity /\ real t10 t10_ninfinity /\ t10_is_infinity (maxreal t10) = true.
Proof. exact t10_refuted. Qed.
Print Assumptions C50_posit10_refuted.
Theorem C50_posit12_nan_refuted : is_nan p12 (exceptional p12) /\ ~ pattern p12 (t12_neg (exceptional p12)) /\
  t12_is_nan (t12_neg (exceptional p12)) = false /\
  exists r, t12_mul t12_one (exceptional p12) = Ok r /\ ~ is_nan p12 r.
Proof. exact t12_nan_refuted. Qed.
Print Assumptions C50_posit12_nan_refuted.
Example C50_ex : t8_is_nan (-128) = true /\ t8_is_nan 127 = false /\ t12_is_nan (-2048) = true /\ t10_is_nan (-512) = true.
Proof. ex. Qed.

(** C51. posit12 (totalbits 12, esbits 2, WithNan). *)
Theorem C51_inv v : real p12 v -> v <> 0 -> exists r, t12_inv v = Ok r /\ rounds_tz p12 (/ value p12 v) r.
Proof. exact (t12_inv_rounds v). Qed.
Print Assumptions C51_inv.
Theorem C51_square v : real p12 v -> exists r, t12_square v = Ok r /\ rounds_tz p12 (value p12 v * value p12 v) r.
Proof. exact (t12_square_rounds v). Qed.
Print Assumptions C51_square.
Theorem C51_float v : real p12 v -> exists b x, t12_to_float v = Ok b /\ 0 <= b < 2 ^ 32 /\
  ieee_val 8 23 b = FinVal x /\ (x == value p12 v)%Q /\ t12_of_float b = Ok v.
Proof. exact (t12_float v). Qed.
Print Assumptions C51_float.
Theorem C51_float_nan : exists b, t12_to_float (exceptional p12) = Ok b /\ ieee_val 8 23 b = NaNVal /\
  t12_of_float b = Ok (exceptional p12).
Proof. exact t12_float_nan. Qed.
Print Assumptions C51_float_nan.
Theorem C51_mul a b : real p12 a -> real p12 b ->
  exists r, t12_mul a b = Ok r /\ rounds_tz p12 (value p12 a * value p12 b) r.
Proof. exact (t12_mul_rounds a b). Qed.
Print Assumptions C51_mul.
Theorem C51_div a b : real p12 a -> real p12 b -> b <> 0 ->
  exists r, t12_div a b = Ok r /\ rounds_tz p12 (value p12 a / value p12 b) r.
Proof. exact (t12_div_rounds a b). Qed.
Print Assumptions C51_div.
Theorem C51_half v : real p12 v -> exists r, t12_half v = Ok r /\ rounds_tz p12 (value p12 v / 2) r.
Proof. exact (t12_half_rounds v). Qed.
Print Assumptions C51_half.
Theorem C51_twice v : real p12 v -> exists r, t12_twice v = Ok r /\ rounds_tz p12 (2 * value p12 v) r.
Proof. exact (t12_twice_rounds v). Qed.
Print Assumptions C51_twice.
Theorem C51_specials : t12_inv 0 = Ok 0 /\ t12_inv (exceptional p12) = Ok (exceptional p12) /\
  t12_square (exceptional p12) = Ok (exceptional p12) /\ t12_exp2 (exceptional p12) = Ok (exceptional p12) /\
  t12_neg (exceptional p12) = 2 ^ 11.
Proof. exact t12_specials. Qed.
Print Assumptions C51_specials.
Example C51_ex : real p12 (-1500) /\ real p12 700 /\ -1500 <> 0 /\ t12_inv (-1500) = Ok (-532) /\ t12_square (-1500) = Ok 1758 /\
  t12_mul (-1500) 700 = Ok (-1185) /\ t12_to_float (-1500) = Ok 3244032000.
Proof. ex. Qed.

(** C59. SIMD. Full claim: + * / - inv exp2 square act lane by lane and unary minus negates. Missing:
    unary minus gives the absolute value, so a - b is a + |b|; half and twice use the wrong constant. *)
Theorem C59_lanes_partial a b : Forall byte a -> Forall byte b -> length b = length a ->
  (exists r, simd_add a b = Ok r /\ lanewise2 t8_add a b r) /\
  (exists r, simd_mul a b = Ok r /\ lanewise2 t8_mul a b r) /\
  (exists r, simd_div a b = Ok r /\ lanewise2 t8_div a b r) /\
  (exists r, simd_inv a = Ok r /\ lanewise1 t8_inv a r) /\
  (exists r, simd_exp2 a = Ok r /\ lanewise1 t8_exp2 a r) /\
  (exists r, simd_square a = Ok r /\ lanewise1 t8_square a r).
Proof. exact (simd_lanes a b). Qed.
Print Assumptions C59_lanes_partial.
Theorem C59_minus_is_abs a i : Forall byte a -> (i < length a)%nat ->
  int8 (nth i (simd_neg a) 0) = Z.abs (int8 (nth i a 0)) \/ nth i a 0 = 128 /\ nth i (simd_neg a) 0 = 128.
Proof. exact (simd_neg_abs a i). Qed.
Print Assumptions C59_minus_is_abs.
Theorem C59_minus_refuted : exists a, length a = 32%nat /\ Forall byte a /\ real p8 (int8 (nth 0 a 0)) /\
  ~ (value p8 (int8 (nth 0 (simd_neg a) 0%Z)) == - value p8 (int8 (nth 0 a 0%Z)))%Q.
Proof. exact simd_neg_refuted. Qed.
Print Assumptions C59_minus_refuted.
Theorem C59_half_refuted : exists a r, length a = 32%nat /\ Forall byte a /\ (value p8 (int8 (nth 0 a 0%Z)) == 1)%Q /\
  simd_half a = Ok r /\ (value p8 (int8 (nth 0 r 0%Z)) == 51 # 64)%Q.
Proof. exact simd_half_refuted. Qed.
Print Assumptions C59_half_refuted.
Example C59_ex : Forall byte (repeat 200 32) /\ Forall byte (repeat 77 32) /\ length (repeat 77 32) = length (repeat 200 32) /\
  simd_add (repeat 200 32) (repeat 77 32) = Ok (repeat 34 32).
Proof. conj; try (apply Forall_forall; intros x I; apply repeat_spec in I; subst x; unfold byte; split; reflexivity || (cbv; congruence)); vm_compute; reflexivity. Qed.

(** C60. Software half floats. Full claim: both conversions preserve values and round trip on normal
    halves. Missing: float16nto32 returns the bit pattern of the float as a number ([float16nto32_uint] is
    that unsigned integer before its conversion to float). *)
Theorem C60_to_half_partial b : 0 <= b < 2 ^ 32 ->
  match ieee_val 8 23 b with
  | NaNVal => exists h, float32to16n b = Ok h /\ 0 <= h < 2 ^ 16 /\ ieee_val 5 10 h = NaNVal
  | InfVal s => exists h, float32to16n b = Ok h /\ 0 <= h < 2 ^ 16 /\ ieee_val 5 10 h = InfVal s
  | FinVal q =>
     ((pow2 (-14) <= Qabs q)%Q -> exists h, float32to16n b = Ok h /\ float_trunc 5 10 q h) /\
     ((Qabs q < pow2 (-14))%Q -> float32to16n b = Ok 0)
  end.
Proof. exact (half_narrow b). Qed.
Print Assumptions C60_to_half_partial.
Theorem C60_to_float_bits_partial h : 0 <= h < 2 ^ 16 -> exists b, float16nto32_uint h = Ok b /\ 0 <= b < 2 ^ 32 /\
  match ieee_val 5 10 h with
  | FinVal q => (exists q', ieee_val 8 23 b = FinVal q' /\ (q' == q)%Q) /\ ((pow2 (-14) <= Qabs q)%Q -> float32to16n b = Ok h)
  | InfVal s => ieee_val 8 23 b = InfVal s /\ float32to16n b = Ok h
  | NaNVal => ieee_val 8 23 b = NaNVal
  end.
Proof. exact (half_widen h). Qed.
Print Assumptions C60_to_float_bits_partial.
Theorem C60_to_float_refuted : exists h b, 0 <= h < 2 ^ 16 /\ ieee_val 5 10 h = FinVal (1 * (inject_Z 1024 * pow2 (-10))) /\
  float16nto32_uint h = Ok b /\ ~ (inject_Z b == 1 * (inject_Z 1024 * pow2 (-10)))%Q.
Proof. exact half_widen_refuted. Qed.
Print Assumptions C60_to_float_refuted.
Theorem C60_sign h : 0 <= h < 2 ^ 16 ->
  match ieee_val 5 10 h with
  | FinVal q => (exists r, ieee_val 5 10 (h_neg h) = FinVal r /\ (r == - q)%Q) /\ (exists r, ieee_val 5 10 (h_abs h) = FinVal r /\ (r == Qabs q)%Q)
  | InfVal s => ieee_val 5 10 (h_neg h) = InfVal (negb s) /\ ieee_val 5 10 (h_abs h) = InfVal false
  | NaNVal => ieee_val 5 10 (h_neg h) = NaNVal /\ ieee_val 5 10 (h_abs h) = NaNVal
  end.
Proof. exact (half_sign h). Qed.
Print Assumptions C60_sign.
Example C60_ex : 0 <= 0xc0490fdb < 2 ^ 32 /\ float32to16n 0xc0490fdb = Ok 0xc248 /\ 0 <= 0xc248 < 2 ^ 16 /\
  float16nto32_uint 0xc248 = Ok 0xc0490000 /\ float32to16n 0x38000000 = Ok 0.
Proof. ex. Qed.

(** C64. exp2 of posit8: truncation of 2^x. The posit12 table has zeros where 2^x underflows the float used to build it;
    PropExp describes the whole table. *)
Theorem C64_posit8_exp2_partial v : real p8 v -> exists r, t8_exp2 v = Ok r /\ exp2_trunc p8 (value p8 v) r.
Proof. exact (t8_exp2_trunc v). Qed.
Print Assumptions C64_posit8_exp2_partial.
Theorem C64_posit12_exp2_refuted : exists v, real p12 v /\ t12_exp2 v = Ok 0 /\ ~ exp2_trunc p12 (value p12 v) 0.
Proof. exact t12_exp2_refuted. Qed.
Print Assumptions C64_posit12_exp2_refuted.
Example C64_ex : real p8 (-80) /\ t8_exp2 (-80) = Ok 22 /\ t8_exp2 0 = Ok 64 /\ t8_exp2 127 = Ok 127 /\ t8_exp2 (-127) = Ok 1.
Proof. ex. Qed.

(** C65. Order, sign and extrema of posit8. Full claim: NaN is unordered, as in the generic template. *)
Theorem C65_order_partial a b : real p8 a -> real p8 b ->
  (t8_lt a b = true <-> (value p8 a < value p8 b)%Q) /\
  (t8_le a b = true <-> (value p8 a <= value p8 b)%Q) /\
  (t8_gt a b = true <-> (value p8 a > value p8 b)%Q) /\
  (t8_ge a b = true <-> (value p8 a >= value p8 b)%Q) /\
  (t8_eq a b = true <-> (value p8 a == value p8 b)%Q) /\
  (t8_ne a b = true <-> ~ (value p8 a == value p8 b)%Q).
Proof. exact (t8_order a b). Qed.
Print Assumptions C65_order_partial.
Theorem C65_minmax a b : real p8 a -> real p8 b ->
  (value p8 (t8_stdmin a b) == Qmin (value p8 a) (value p8 b))%Q /\
  (value p8 (t8_stdmax a b) == Qmax (value p8 a) (value p8 b))%Q.
Proof. exact (t8_minmax a b). Qed.
Print Assumptions C65_minmax.
Theorem C65_sign v : real p8 v ->
  real p8 (t8_neg v) /\ (value p8 (t8_neg v) == - value p8 v)%Q /\ real p8 (t8_abs v) /\ (value p8 (t8_abs v) == Qabs (value p8 v))%Q.
Proof. exact (t8_neg_abs v). Qed.
Print Assumptions C65_sign.
Theorem C65_nan_order_refuted b : real p8 b -> t8_eq (exceptional p8) (exceptional p8) = true /\ t8_lt (exceptional p8) b = true /\
  t8_le (exceptional p8) (exceptional p8) = true.
Proof. exact (t8_order_nan b). Qed.
Print Assumptions C65_nan_order_refuted.
Example C65_ex : real p8 (-37) /\ real p8 100 /\ t8_lt (-37) 100 = true /\ t8_stdmax (-37) 100 = 100.
Proof. ex. Qed.

(** C66. Conversions of posit8. *)
Theorem C66_float v : real p8 v -> exists b x, t8_to_float v = Ok b /\ 0 <= b < 2 ^ 32 /\
  ieee_val 8 23 b = FinVal x /\ (x == value p8 v)%Q /\ t8_of_float b = Ok v.
Proof. exact (t8_float v). Qed.
Print Assumptions C66_float.
Theorem C66_float_nan : exists b, t8_to_float (exceptional p8) = Ok b /\ ieee_val 8 23 b = NaNVal /\ t8_of_float b = Ok (exceptional p8).
Proof. exact t8_float_nan. Qed.
Print Assumptions C66_float_nan.
Theorem C66_int v : real p8 v -> exists i, t8_to_int v = Ok i /\ truncated (value p8 v) i.
Proof. exact (t8_int v). Qed.
Print Assumptions C66_int.
Theorem C66_int_nan : t8_to_int (exceptional p8) = UB FloatToInt.
Proof. exact t8_int_nan. Qed.
Print Assumptions C66_int_nan.
Example C66_ex : real p8 (-122) /\ t8_to_float (-122) = Ok 0xc1400000 /\ t8_to_int (-122) = Ok (-12) /\ t8_to_int (-37) = Ok 0.
Proof. ex. Qed.

(** C67. Conversion between two float formats through Unpacked<FT,ET> (make_floati then pack_xfloati). *)
Theorem C67_convert_float F E eb fb den eb' fb' den' b :
  is_width F -> is_width E -> 16 <= E -> fmt_ok eb fb -> fmt_ok eb' fb' -> fb <= F -> 0 <= b < 2 ^ (eb + fb + 1) ->
  let o := let! u := u_unpack_xfloati F E (any_floattrait eb fb den) b in u_pack_xfloati F E (any_floattrait eb' fb' den') u in
  match ieee_val eb fb b with
  | NaNVal => exists r, o = Ok r /\ 0 <= r < 2 ^ (eb' + fb' + 1) /\ ieee_val eb' fb' r = NaNVal
  | InfVal s => exists r, o = Ok r /\ 0 <= r < 2 ^ (eb' + fb' + 1) /\ ieee_val eb' fb' r = InfVal s
  | FinVal q =>
     ((q == 0)%Q \/ (den = false /\ (Qabs q < pow2 (2 - 2 ^ (eb - 1)))%Q) -> o = Ok 0) /\
     (den = true \/ (pow2 (2 - 2 ^ (eb - 1)) <= Qabs q)%Q -> (pow2 (2 - 2 ^ (eb' - 1)) <= Qabs q)%Q ->
        exists r, o = Ok r /\ float_trunc eb' fb' q r) /\
     (den' = true -> (Qabs q < pow2 (2 - 2 ^ (eb' - 1)))%Q -> o = Ok 0)
  end.
Proof. exact (float_convert F E eb fb den eb' fb' den' b). Qed.
Print Assumptions C67_convert_float.
Example C67_ex : is_width 64 /\ is_width 32 /\ 16 <= 32 /\ fmt_ok 11 52 /\ fmt_ok 8 23 /\ 52 <= 64 /\
  0 <= 0x400921fb54442d18 < 2 ^ (11 + 52 + 1) /\
  (let! u := u_unpack_xfloati 64 32 (any_floattrait 11 52 true) 0x400921fb54442d18 in
   u_pack_xfloati 64 32 (any_floattrait 8 23 true) u) = Ok 0x40490fda.
Proof. conj; try ex; try (constructor; ex); right; right; ex. Qed.

(** C68. Formats of small range (twice (totalbits-2)*2^esbits below max(32, bits of FT)), such as every format with
    totalbits <= 16 and esbits 0: addition is defined on all real operands. *)
Theorem C68_small_range_add c a b : valid_cfg c -> exp_ok c -> add_fits c -> roomy c ->
  2 * ((cN c - 2) * 2 ^ ces c) < Z.max 32 (cF c) -> real c a -> real c b ->
  exists r, p_add c a b = Ok r /\ faithful c (value c a + value c b) r /\ sign_ok (value c a + value c b) r.
Proof. exact (small_range_add c a b). Qed.
Print Assumptions C68_small_range_add.
(** A sum is at most one pattern away from the truncated exact sum. *)
Theorem C68_one_step c a b r v : valid_cfg c -> exp_ok c -> add_fits c -> real c a -> real c b ->
  p_add c a b = Ok r -> rounds_tz c (value c a + value c b) v -> Z.abs (v - r) <= 1.
Proof. exact (add_one_step c a b r v). Qed.
Print Assumptions C68_one_step.
Example C68_ex : valid_cfg p8 /\ exp_ok p8 /\ add_fits p8 /\ roomy p8 /\ 2 * ((cN p8 - 2) * 2 ^ ces p8) < Z.max 32 (cF p8) /\
  real p8 127 /\ real p8 (-1) /\ p_add p8 127 (-1) = Ok 127.
Proof. ex. Qed.
