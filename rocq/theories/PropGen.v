(** The programs that write the tables, the class posit10 whose tables they write, and the rest of the tabulated classes. *)
From Coq Require Import ZArith QArith Qabs Qminmax List Bool.
From Verif Require Import Res CInt Traits Unpacked Cfg Posit Configs Spec SpecTab SpecFloat SpecAny SpecGen FloatOps Tab Gen Examples
  FloatProof TabProof4 GenProof GenProof3 GenProof4 GenProof5 GenProof6.
Import ListNotations.
Open Scope Z_scope.

(** In this file [rnd] is any rounding of float arithmetic (every IEEE rounding mode is one) and [ex] any function
    exp2 on floats that returns a neighbour of 2^x. *)

(** C86. The shipped tables are what the programs write, entry by entry. Full claim: every array. The exp2
    array of posit12, which depends on how exp2 rounds, is in PropExp. *)
Theorem C86_posit8_binary_partial rnd : rounding 8 23 rnd -> forall i, 0 <= i < 65536 ->
  g_opadd p8 rnd i = s8_entry Tbl8.opadd_rows i /\ g_opmul p8 rnd i = s8_entry Tbl8.opmul_rows i /\ g_opdiv p8 rnd i = s8_entry Tbl8.opdiv_rows i.
Proof. exact (gen8_pairs rnd). Qed.
Print Assumptions C86_posit8_binary_partial.
Theorem C86_posit8_unary rnd : rounding 8 23 rnd -> forall i, 0 <= i < 256 ->
  g_opinv p8 i = s8_entry Tbl8.opinv_rows i /\ g_opsquare p8 rnd i = s8_entry Tbl8.opsquare_rows i /\ g_ophalf p8 rnd i = s8_entry Tbl8.ophalf_rows i /\
  g_op2float p8 i = s8_op2float i.
Proof. exact (gen8_unary rnd). Qed.
Print Assumptions C86_posit8_unary.
Theorem C86_posit8_exp2 ex : exp2_float 8 23 ex -> forall i, 0 <= i < 256 -> g_opexp2 p8 ex i = s8_entry Tbl8.opexp2_rows i.
Proof. exact (gen8_exp2 ex). Qed.
Print Assumptions C86_posit8_exp2.
Theorem C86_posit12_unary rnd : rounding 8 23 rnd -> forall i, 0 <= i < 4096 ->
  g_opinv p12 i = s12_entry Tbl12.opinv_rows i /\ g_opsquare p12 rnd i = s12_entry Tbl12.opsquare_rows i /\ g_op2float p12 i = s12_op2float i.
Proof. exact (gen12_unary rnd). Qed.
Print Assumptions C86_posit12_unary.
Example C86_ex : rounding 8 23 (rne 8 23) /\ exp2_float 8 23 ex_floor /\ s8_entry Tbl8.opadd_rows (200 * 256 + 77) = Ok 34 /\
  s8_entry Tbl8.opexp2_rows 176 = Ok 22 /\ s12_entry Tbl12.opinv_rows 2596 = Ok (-532).
Proof. split; [exact (rne_rounding 8 23 fmt23)|]. split; [exact ex_floor_faithful|]. ex. Qed.

(** C87. Arithmetic of posit10 (totalbits 10, esbits 1, WithNan). Sums pass through a float: they are truncated when
    the sum is a float, and in any case one of the two posits around the exact sum. *)
Theorem C87_add rnd : rounding 8 23 rnd -> forall a b, real t10 a -> real t10 b ->
  exists r, t10_add rnd a b = Ok r /\ via_float t10 8 23 (value t10 a + value t10 b) r.
Proof. exact (t10_add_ok rnd). Qed.
Print Assumptions C87_add.
Theorem C87_sub rnd : rounding 8 23 rnd -> forall a b, real t10 a -> real t10 b ->
  exists r, t10_sub rnd a b = Ok r /\ via_float t10 8 23 (value t10 a - value t10 b) r.
Proof. exact (t10_sub_ok rnd). Qed.
Print Assumptions C87_sub.
Theorem C87_mul rnd : rounding 8 23 rnd -> forall a b, real t10 a -> real t10 b ->
  exists r, t10_mul rnd a b = Ok r /\ rounds_tz t10 (value t10 a * value t10 b) r.
Proof. exact (t10_mul_ok rnd). Qed.
Print Assumptions C87_mul.
Theorem C87_div rnd : rounding 8 23 rnd -> forall a b, real t10 a -> real t10 b -> b <> 0 ->
  exists r, t10_div rnd a b = Ok r /\ rounds_tz t10 (value t10 a / value t10 b) r.
Proof. exact (t10_div_ok rnd). Qed.
Print Assumptions C87_div.
Theorem C87_div_zero rnd a : pattern t10 a -> t10_div rnd a 0 = Ok (exceptional t10).
Proof. exact (t10_div0 rnd a). Qed.
Print Assumptions C87_div_zero.
Theorem C87_inv v : real t10 v -> v <> 0 -> exists r, t10_inv v = Ok r /\ rounds_tz t10 (/ value t10 v) r.
Proof. exact (t10_inv_ok v). Qed.
Print Assumptions C87_inv.
Theorem C87_half rnd : rounding 8 23 rnd -> forall v, real t10 v -> exists r, t10_half rnd v = Ok r /\ rounds_tz t10 (value t10 v / 2) r.
Proof. exact (t10_half_ok rnd). Qed.
Print Assumptions C87_half.
Theorem C87_twice v : real t10 v -> exists r, t10_twice v = Ok r /\ rounds_tz t10 (2 * value t10 v) r.
Proof. exact (t10_twice_ok v). Qed.
Print Assumptions C87_twice.
Theorem C87_square rnd : rounding 8 23 rnd -> forall v, real t10 v -> exists r, t10_square rnd v = Ok r /\ rounds_tz t10 (value t10 v * value t10 v) r.
Proof. exact (t10_square_ok rnd). Qed.
Print Assumptions C87_square.
Theorem C87_epsilon rnd : rounding 8 23 rnd ->
  exists e, t10_epsilon rnd = Ok e /\ (value t10 e == value t10 t10_afterone - value t10 t10_one)%Q /\ (value t10 e == 1 # 32)%Q.
Proof. exact (t10_eps rnd). Qed.
Print Assumptions C87_epsilon.
Theorem C87_nan rnd a b : pattern t10 a -> pattern t10 b -> a = exceptional t10 \/ b = exceptional t10 ->
  t10_add rnd a b = Ok (exceptional t10) /\ t10_mul rnd a b = Ok (exceptional t10) /\ t10_div rnd a b = Ok (exceptional t10) /\ t10_sub rnd a b = Ok (exceptional t10).
Proof. exact (t10_nan_ops rnd a b). Qed.
Print Assumptions C87_nan.
(** exp2. Full claim: for every number the result is 2^x when that is a posit, and one of its neighbours otherwise.
    Missing: arguments below -142, whose result is 0 instead of the least posit (refuted below), and
    arguments above 127, where an exp2 that overflows makes NaN (refuted below). *)
Theorem C87_exp2_partial ex : exp2_float 8 23 ex -> forall v, real t10 v -> (-142 <= value t10 v)%Q ->
  exists r, t10_exp2 ex v = Ok r /\ (exp2_near t10 (value t10 v) r \/ (127 < value t10 v)%Q /\ r = exceptional t10).
Proof. exact (t10_exp2_wide ex). Qed.
Print Assumptions C87_exp2_partial.
Theorem C87_exp2_low_refuted ex : exp2_float 8 23 ex -> forall v, real t10 v -> (value t10 v <= -143)%Q -> t10_exp2 ex v = Ok 0.
Proof. exact (t10_exp2_low ex). Qed.
Print Assumptions C87_exp2_low_refuted.
Theorem C87_exp2_high_refuted : exists ex, exp2_float 8 23 ex /\
  forall v, real t10 v -> (128 <= value t10 v)%Q -> t10_exp2 ex v = Ok (exceptional t10).
Proof. exact (ex_intro _ ex_over (conj ex_over_faithful t10_exp2_over)). Qed.
Print Assumptions C87_exp2_high_refuted.
(** 2^16 and -2^16 are such arguments. *)
Example C87_exp2_ex : real t10 496 /\ real t10 (-496) /\ (128 <= value t10 496)%Q /\ (value t10 (-496) <= -143)%Q /\ t10_exp2 ex_floor 496 = Ok 511.
Proof.
  assert (P : pattern t10 496) by (apply pat_t10; split; [discriminate|reflexivity]).
  split; [ex|]. split; [ex|]. split; [ex|]. split; [ex|]. destruct (t10_entry (rne 8 23) ex_floor 496 P) as (_ & _ & _ & ->). vm_compute. reflexivity.
Qed.
Theorem C87_unary_nan rnd ex : exp2_float 8 23 ex ->
  t10_inv (exceptional t10) = Ok (exceptional t10) /\ t10_inv 0 = Ok 0 /\ t10_half rnd (exceptional t10) = Ok (exceptional t10) /\
  t10_square rnd (exceptional t10) = Ok (exceptional t10) /\ t10_exp2 ex (exceptional t10) = Ok (exceptional t10) /\ t10_twice (exceptional t10) = Ok (exceptional t10).
Proof. exact (t10_unary_nan rnd ex). Qed.
Print Assumptions C87_unary_nan.
Example C87_ex : real t10 300 /\ real t10 (-177) /\ -177 <> 0 /\ pattern t10 (-512) /\ (value t10 300 == 11 # 4)%Q /\ (-142 <= value t10 300)%Q /\
  t10_add (rne 8 23) 300 (-177) = Ok 296 /\ t10_mul (rne 8 23) 300 (-177) = Ok (-225) /\ t10_div (rne 8 23) 300 (-177) = Ok (-377) /\
  t10_inv 300 = Ok 206 /\ t10_half (rne 8 23) 300 = Ok 268 /\ t10_square (rne 8 23) 300 = Ok 348 /\ t10_twice 300 = Ok 332 /\ t10_exp2 ex_floor 300 = Ok 341.
Proof.
  assert (P : pattern t10 300) by (apply pat_t10; split; [discriminate|reflexivity]). assert (Q : pattern t10 (-177)) by (apply pat_t10; split; [discriminate|reflexivity]).
  split; [ex|]. split; [ex|]. split; [ex|]. split; [ex|]. split; [ex|]. split; [ex|].
  destruct (t10_entries (rne 8 23) 300 (-177) P Q) as (-> & -> & ->). destruct (t10_entry (rne 8 23) ex_floor 300 P) as (-> & -> & -> & ->). ex.
Qed.

(** C88. posit10: conversions, order, sign and extrema. Full claim: NaN is unordered and its own negation. *)
Theorem C88_float_partial v : real t10 v ->
  exists b x, t10_to_float v = Ok b /\ 0 <= b < 2 ^ 32 /\ ieee_val 8 23 b = FinVal x /\ (x == value t10 v)%Q /\ t10_of_float b = Ok v.
Proof. exact (t10_float v). Qed.
Print Assumptions C88_float_partial.
Theorem C88_float_nan : exists b, t10_to_float (exceptional t10) = Ok b /\ ieee_val 8 23 b = NaNVal /\ t10_of_float b = Ok (exceptional t10).
Proof. exact t10_float_nan. Qed.
Print Assumptions C88_float_nan.
Theorem C88_order a b : real t10 a -> real t10 b ->
  (t10_lt a b = true <-> (value t10 a < value t10 b)%Q) /\
  (t10_le a b = true <-> (value t10 a <= value t10 b)%Q) /\
  (t10_gt a b = true <-> (value t10 a > value t10 b)%Q) /\
  (t10_ge a b = true <-> (value t10 a >= value t10 b)%Q) /\
  (t10_eq a b = true <-> (value t10 a == value t10 b)%Q) /\
  (t10_ne a b = true <-> ~ (value t10 a == value t10 b)%Q).
Proof. exact (t10_order a b). Qed.
Print Assumptions C88_order.
Theorem C88_minmax a b : real t10 a -> real t10 b ->
  (value t10 (t10_stdmin a b) == Qmin (value t10 a) (value t10 b))%Q /\ (value t10 (t10_stdmax a b) == Qmax (value t10 a) (value t10 b))%Q.
Proof. exact (t10_minmax a b). Qed.
Print Assumptions C88_minmax.
Theorem C88_sign v : real t10 v ->
  real t10 (t10_neg v) /\ (value t10 (t10_neg v) == - value t10 v)%Q /\ real t10 (t10_abs v) /\ (value t10 (t10_abs v) == Qabs (value t10 v))%Q.
Proof. exact (t10_neg_abs v). Qed.
Print Assumptions C88_sign.
Theorem C88_nan_refuted b : real t10 b ->
  t10_eq (exceptional t10) (exceptional t10) = true /\ t10_lt (exceptional t10) b = true /\
  t10_neg (exceptional t10) = 512 /\ ~ pattern t10 512 /\ t10_is_nan 512 = false /\ t10_gt 512 b = true.
Proof. exact (t10_nan_refuted b). Qed.
Print Assumptions C88_nan_refuted.
Example C88_ex : real t10 300 /\ real t10 (-177) /\ t10_lt (-177) 300 = true /\ t10_neg (-177) = 177 /\ t10_stdmin 300 (-177) = -177 /\
  t10_of_float 1076887552 = Ok 300.
Proof. ex. Qed.

(** C89. Tabulated posits made out of floats, doubles and ints, and turned into ints. Full claim: every
    number is truncated.  False of the least int, whose magnitude overflows, and of the subnormal numbers whose bits
    FT does not keep, which become 0 instead of the least posit (refuted below). *)
Theorem C89_posit8_partial : reads_floats p8 8 23 t8_of_float /\ reads_floats p8 11 52 t8_of_double /\ reads_ints p8 t8_of_int.
Proof. exact t8_reads. Qed.
Print Assumptions C89_posit8_partial.
Theorem C89_posit10_partial : reads_floats t10 8 23 t10_of_float /\ reads_floats t10 11 52 t10_of_double /\ reads_ints t10 t10_of_int.
Proof. exact t10_reads. Qed.
Print Assumptions C89_posit10_partial.
Theorem C89_posit12_partial : reads_floats p12 8 23 t12_of_float /\ reads_ints p12 t12_of_int.
Proof. exact t12_reads. Qed.
Print Assumptions C89_posit12_partial.
Theorem C89_int_min_refuted : t8_of_int (- 2 ^ 31) = UB SignedOverflow /\ t10_of_int (- 2 ^ 31) = UB SignedOverflow /\ t12_of_int (- 2 ^ 31) = UB SignedOverflow.
Proof. exact tab_int_min. Qed.
Print Assumptions C89_int_min_refuted.
Theorem C89_posit10_to_int v : real t10 v -> exists i, truncated (value t10 v) i /\
  (- 2 ^ 31 <= i < 2 ^ 31 -> t10_to_int v = Ok i) /\ (~ - 2 ^ 31 <= i < 2 ^ 31 -> t10_to_int v = UB FloatToInt).
Proof. exact (t10_int v). Qed.
Print Assumptions C89_posit10_to_int.
Theorem C89_posit12_to_int v : real p12 v -> exists i, truncated (value p12 v) i /\
  (- 2 ^ 31 <= i < 2 ^ 31 -> t12_to_int v = Ok i) /\ (~ - 2 ^ 31 <= i < 2 ^ 31 -> t12_to_int v = UB FloatToInt).
Proof. exact (t12_int v). Qed.
Print Assumptions C89_posit12_to_int.
Example C89_ex : 0 <= 0xc1600000 < 2 ^ (8 + 23 + 1) /\ t10_of_float 0xc1600000 = Ok (-376) /\ t10_of_double 0xc02c000000000000 = Ok (-376) /\
  t10_of_int (-1000) = Ok (-463) /\ t8_of_float 0xc1600000 = Ok (-123) /\ t8_of_int 40 = Ok 126 /\ t12_of_int 1000 = Ok 1854 /\
  real p12 1500 /\ t12_to_int 1500 = Ok 13 /\ t12_to_int 2040 = Ok 268435456.
Proof. ex. Qed.

(** C90. posit12: sums, sign, order, extrema. Full claim: every sum is defined. Missing: operands far apart. *)
Theorem C90_add_partial a b : real p12 a -> real p12 b ->
  (near p12 (value p12 a) (value p12 b) \/ a = 0 \/ b = 0 -> exists r, t12_add a b = Ok r /\ faithful p12 (value p12 a + value p12 b) r /\ sign_ok (value p12 a + value p12 b) r) /\
  (~ near p12 (value p12 a) (value p12 b) -> t12_add a b = UB ShiftCount).
Proof. exact (t12_add_ok a b). Qed.
Print Assumptions C90_add_partial.
Theorem C90_sub_partial a b : real p12 a -> real p12 b -> near p12 (value p12 a) (value p12 b) \/ a = 0 \/ b = 0 ->
  exists r, t12_sub a b = Ok r /\ faithful p12 (value p12 a - value p12 b) r /\ sign_ok (value p12 a - value p12 b) r.
Proof. exact (t12_sub_ok a b). Qed.
Print Assumptions C90_sub_partial.
Theorem C90_add_refuted : exists a b, real p12 a /\ real p12 b /\ t12_add a b = UB ShiftCount.
Proof. exact t12_add_far. Qed.
Print Assumptions C90_add_refuted.
Theorem C90_sign v : real p12 v ->
  real p12 (t12_neg v) /\ (value p12 (t12_neg v) == - value p12 v)%Q /\ real p12 (t12_abs v) /\ (value p12 (t12_abs v) == Qabs (value p12 v))%Q.
Proof. exact (t12_neg_abs v). Qed.
Print Assumptions C90_sign.
Theorem C90_epsilon : exists e, t12_epsilon = Ok e /\ (value p12 e == value p12 t12_afterone - value p12 t12_one)%Q /\ (value p12 e == 1 # 128)%Q.
Proof. exact t12_eps. Qed.
Print Assumptions C90_epsilon.
Theorem C90_order a b : real p12 a -> real p12 b ->
  (t12_lt a b = true <-> (value p12 a < value p12 b)%Q) /\
  (t12_le a b = true <-> (value p12 a <= value p12 b)%Q) /\
  (t12_gt a b = true <-> (value p12 a > value p12 b)%Q) /\
  (t12_ge a b = true <-> (value p12 a >= value p12 b)%Q) /\
  (t12_eq a b = true <-> (value p12 a == value p12 b)%Q) /\
  (t12_ne a b = true <-> ~ (value p12 a == value p12 b)%Q).
Proof. exact (t12_order a b). Qed.
Print Assumptions C90_order.
Theorem C90_minmax a b : real p12 a -> real p12 b ->
  (value p12 (t12_stdmin a b) == Qmin (value p12 a) (value p12 b))%Q /\ (value p12 (t12_stdmax a b) == Qmax (value p12 a) (value p12 b))%Q.
Proof. exact (t12_minmax a b). Qed.
Print Assumptions C90_minmax.
Example C90_ex : real p12 700 /\ real p12 (-1500) /\ t12_add 700 (-1500) = Ok (-1497) /\ t12_sub 700 (-1500) = Ok 1502 /\ t12_epsilon = Ok 320 /\
  t12_lt (-1500) 700 = true /\ t12_abs (-1500) = 1500 /\ t12_stdmax (-1500) 700 = 700.
Proof. ex. Qed.
Example C90_ex_near : near p12 (value p12 700) (value p12 (-1500)).
Proof. apply (near_by _ _ _ (-3) 3); ex. Qed.

(** C91. Sign and magnitude tests of the tabulated classes. Full claim: has_neg_exponent tells for every number
    whether its magnitude is below 1. Missing: negative numbers, and posit8, where it is false. *)
Theorem C91_negative v : (real p8 v -> t_is_negative v = true <-> (value p8 v < 0)%Q) /\ (real t10 v -> t_is_negative v = true <-> (value t10 v < 0)%Q) /\
  (real p12 v -> t_is_negative v = true <-> (value p12 v < 0)%Q).
Proof. exact (conj (negative_ok p8 v valid_p8) (conj (negative_ok t10 v valid_t10) (negative_ok p12 v valid_p12))). Qed.
Print Assumptions C91_negative.
Theorem C91_neg_exponent_partial v : 0 <= v -> (real t10 v -> t10_has_neg_exponent v = true <-> (value t10 v < 1)%Q) /\
  (real p12 v -> t12_has_neg_exponent v = true <-> (value p12 v < 1)%Q).
Proof. exact (fun P => conj (fun R => t10_neg_exp v R P) (fun R => t12_neg_exp v R P)). Qed.
Print Assumptions C91_neg_exponent_partial.
Theorem C91_neg_exponent_refuted : (exists v, real t10 v /\ t10_has_neg_exponent v = true /\ (1 < Qabs (value t10 v))%Q) /\
  (exists v, real p12 v /\ t12_has_neg_exponent v = true /\ (1 < Qabs (value p12 v))%Q) /\
  (forall v, pattern p8 v -> t8_has_neg_exponent v = negb (t_is_negative v)).
Proof. exact neg_exp_wrong. Qed.
Print Assumptions C91_neg_exponent_refuted.
Example C91_ex : real t10 200 /\ 0 <= 200 /\ t10_has_neg_exponent 200 = true /\ t10_has_neg_exponent 300 = false /\ real p12 1500 /\ t12_has_neg_exponent 1500 = false /\
  real p8 90 /\ t8_has_neg_exponent 90 = true /\ (1 < value p8 90)%Q /\ t_is_negative (-5) = true /\ real p8 (-5).
Proof. ex. Qed.

(** C92. SIMD: predicates and conversion act lane by lane. Full claim: also is_infinity, minus and twice. Missing:
    those three, which are wrong. *)
Theorem C92_predicates_partial a i : Forall byte a -> (i < length a)%nat ->
  nth i (simd_is_negative a) 0 = mask (t_is_negative (int8 (nth i a 0))) /\
  nth i (simd_is_nan a) 0 = mask (t8_is_nan (int8 (nth i a 0))) /\
  (real p8 (int8 (nth i a 0)) -> 0 <= int8 (nth i a 0) -> nth i (simd_has_neg_exponent a) 0 = mask true <-> (value p8 (int8 (nth i a 0%Z)) < 1)%Q).
Proof. exact (simd_predicates a i). Qed.
Print Assumptions C92_predicates_partial.
Theorem C92_floats a : Forall byte a -> exists r, simd_to_floats a = Ok r /\ Forall2 (fun x b => t8_to_float (int8 x) = Ok b) a r.
Proof. exact (simd_floats a). Qed.
Print Assumptions C92_floats.
Theorem C92_infinity_refuted : exists a, length a = 32%nat /\ Forall byte a /\ real p8 (int8 (nth 0 a 0)) /\ nth 0 (simd_is_infinity a) 0 = mask true.
Proof. exact simd_infinity_wrong. Qed.
Print Assumptions C92_infinity_refuted.
Theorem C92_minus_adds_abs a b : Forall byte a -> Forall byte b -> length b = length a ->
  exists r, simd_sub a b = Ok r /\ lanewise2 (fun x y => t8_add x (t8_abs y)) a b r.
Proof. exact (simd_sub_lanes a b). Qed.
Print Assumptions C92_minus_adds_abs.
Theorem C92_minus_refuted : exists a b r, length a = 32%nat /\ length b = 32%nat /\ Forall byte a /\ Forall byte b /\ (value p8 (int8 (nth 0 a 0%Z)) == 1)%Q /\ (value p8 (int8 (nth 0 b 0%Z)) == 1)%Q /\
  simd_sub a b = Ok r /\ (value p8 (int8 (nth 0 r 0%Z)) == 2)%Q.
Proof. exact simd_sub_refuted. Qed.
Print Assumptions C92_minus_refuted.
Theorem C92_twice_refuted : exists a r, length a = 32%nat /\ Forall byte a /\ (value p8 (int8 (nth 0 a 0%Z)) == 1)%Q /\
  simd_twice a = Ok r /\ ~ (value p8 (int8 (nth 0 r 0%Z)) == 2)%Q.
Proof. exact simd_twice_refuted. Qed.
Print Assumptions C92_twice_refuted.
Example C92_ex : Forall byte (repeat 200 32) /\ (3 < length (repeat 200 32))%nat /\ nth 3 (simd_is_negative (repeat 200 32)) 0 = 255 /\
  nth 3 (simd_is_nan (repeat 128 32)) 0 = 255 /\ simd_to_floats [72] = Ok [0x3fa00000].
Proof. split; [apply Forall_forall; intros x I; apply repeat_spec in I; subst x; unfold byte; split; reflexivity || (cbv; congruence)|]. conj; try (vm_compute; reflexivity). apply PeanoNat.Nat.ltb_lt. reflexivity. Qed.
