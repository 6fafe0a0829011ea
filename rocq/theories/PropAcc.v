(** Accuracy and exactness of the arithmetic: relative error, exact differences, exact integers. *)
From Coq Require Import ZArith QArith Qabs List.
From Verif Require Import Res Traits Cfg Spec SpecFloat SpecAcc Unpacked Posit Posit2 Configs Examples Convert Acc3.
Open Scope Z_scope.

(** C127. Where numbers of the size of the exact result have f >= 0 fraction bits, the relative error of the result is
    below 2^-f. From the least posit to useed times the largest, a truncated result is off by less than the factor
    useed. *)
Theorem C127_multiply c a b r : valid_cfg c -> exp_ok c -> mul_fits c -> real c a -> real c b -> p_mul c a b = Ok r ->
  accurate c (value c a * value c b) r /\ within_useed c (value c a * value c b) r.
Proof. exact (mul_accurate c a b r). Qed.
Print Assumptions C127_multiply.
Theorem C127_divide c a b r : valid_cfg c -> exp_ok c -> mul_fits c -> real c a -> real c b -> b <> 0 -> p_div c a b = Ok r ->
  accurate c (value c a / value c b) r /\ within_useed c (value c a / value c b) r.
Proof. exact (div_accurate c a b r). Qed.
Print Assumptions C127_divide.
Theorem C127_inv c v r : valid_cfg c -> exp_ok c -> mul_fits c -> real c v -> v <> 0 -> ~ (csp c = WithNanInf /\ (v = 1 \/ v = -1)) ->
  p_inv c v = Ok r -> accurate c (/ value c v) r /\ within_useed c (/ value c v) r.
Proof. exact (inv_accurate c v r). Qed.
Print Assumptions C127_inv.
Theorem C127_add c a b r : valid_cfg c -> exp_ok c -> add_fits c -> real c a -> real c b -> p_add c a b = Ok r ->
  accurate c (value c a + value c b) r.
Proof. exact (add_accurate c a b r). Qed.
Print Assumptions C127_add.
Theorem C127_sub c a b r : valid_cfg c -> exp_ok c -> add_fits c -> real c a -> real c b -> p_sub c a b = Ok r ->
  accurate c (value c a - value c b) r.
Proof. exact (sub_accurate c a b r). Qed.
Print Assumptions C127_sub.
Theorem C127_fma c a b d r : valid_cfg c -> exp_ok c -> fma_fits c -> real c a -> real c b -> real c d -> p_fma c a b d = Ok r ->
  accurate c (value c a * value c b + value c d) r.
Proof. exact (fma_accurate c a b d r). Qed.
Print Assumptions C127_fma.
Theorem C127_from_int c i r : valid_cfg c -> exp_ok c -> frac_fits c \/ 32 <= cF c -> - 2 ^ 31 < i < 2 ^ 31 -> p_of_int c i = Ok r ->
  accurate c (inject_Z i) r /\ within_useed c (inject_Z i) r.
Proof. exact (of_int_accurate c i r). Qed.
Print Assumptions C127_from_int.
Theorem C127_from_float c eb fb den b q r : valid_cfg c -> exp_ok c -> fmt_ok eb fb -> et_holds c eb -> frac_fits c -> 0 <= b < 2 ^ (eb + fb + 1) ->
  ieee_val eb fb b = FinVal q -> (pow2 (2 - 2 ^ (eb - 1)) <= Qabs q)%Q -> p_of_float c (any_floattrait eb fb den) b = Ok r ->
  accurate c q r /\ within_useed c q r.
Proof. exact (of_float_accurate c eb fb den b q r). Qed.
Print Assumptions C127_from_float.
Theorem C127_convert c c' v r : valid_cfg c -> valid_cfg c' -> exp_ok c' -> frac_fits c -> same_unpacked c c' -> real c v -> p_convert c c' v = Ok r ->
  accurate c' (value c v) r /\ within_useed c' (value c v) r.
Proof. exact (convert_accurate c c' v r). Qed.
Print Assumptions C127_convert.
Example C127_ex : valid_cfg p16 /\ exp_ok p16 /\ mul_fits p16 /\ add_fits p16 /\ real p16 20001 /\ real p16 (-12345) /\
  p_mul p16 20001 (-12345) = Ok (-16012) /\ scale (value p16 20001 * value p16 (-12345)) (-1) /\ fracbits p16 (-1) = 12 /\ fracbits p16 20 = 2 /\ fracbits p16 28 = -2.
Proof. ex. Qed.

(** C128. The difference of two numbers of the same sign within a factor of two of each other is exact; without
    exponent bits so is every sum and difference of magnitude up to 1. Differences are zero only for equal operands,
    products and quotients only for a zero operand. *)
Theorem C128_close c a b : valid_cfg c -> exp_ok c -> add_fits c -> real c a -> real c b -> same_sign a b ->
  (Qabs (value c a) <= 2 * Qabs (value c b))%Q -> (Qabs (value c b) <= 2 * Qabs (value c a))%Q ->
  (forall r, p_sub c a b = Ok r -> (value c r == value c a - value c b)%Q) /\ (roomy c -> exists r, p_sub c a b = Ok r).
Proof. exact (sub_sterbenz c a b). Qed.
Print Assumptions C128_close.
Example C128_ex : valid_cfg p16 /\ exp_ok p16 /\ add_fits p16 /\ roomy p16 /\ real p16 20001 /\ real p16 19003 /\ same_sign 20001 19003 /\
  (Qabs (value p16 20001) <= 2 * Qabs (value p16 19003))%Q /\ (Qabs (value p16 19003) <= 2 * Qabs (value p16 20001))%Q /\
  p_sub p16 20001 19003 = Ok 8088.
Proof. ex. Qed.
Theorem C128_unit_sum c a b r : valid_cfg c -> exp_ok c -> add_fits c -> ces c = 0 -> real c a -> real c b ->
  (Qabs (value c a + value c b) <= 1)%Q -> p_add c a b = Ok r -> (value c r == value c a + value c b)%Q.
Proof. exact (add_es0 c a b r). Qed.
Print Assumptions C128_unit_sum.
Theorem C128_unit_difference c a b r : valid_cfg c -> exp_ok c -> add_fits c -> ces c = 0 -> real c a -> real c b ->
  (Qabs (value c a - value c b) <= 1)%Q -> p_sub c a b = Ok r -> (value c r == value c a - value c b)%Q.
Proof. exact (sub_es0 c a b r). Qed.
Print Assumptions C128_unit_difference.
Example C128_unit_ex : valid_cfg p8 /\ exp_ok p8 /\ add_fits p8 /\ ces p8 = 0 /\ real p8 71 /\ real p8 (-41) /\
  (Qabs (value p8 71 + value p8 (-41)) <= 1)%Q /\ p_add p8 71 (-41) = Ok 37.
Proof. ex. Qed.
Theorem C128_zero c a b r : valid_cfg c -> exp_ok c -> real c a -> real c b ->
  (add_fits c -> p_sub c a b = Ok r -> (r = 0 <-> a = b)) /\
  (add_fits c -> p_add c a b = Ok r -> (r = 0 <-> a = - b)) /\
  (mul_fits c -> p_mul c a b = Ok r -> (r = 0 <-> a = 0 \/ b = 0)) /\
  (mul_fits c -> b <> 0 -> p_div c a b = Ok r -> (r = 0 <-> a = 0)).
Proof. exact (zero_results c a b r). Qed.
Print Assumptions C128_zero.
Example C128_zero_ex : p_mul p16 1 1 = Ok 1 /\ p_div p16 1 32767 = Ok 1 /\ p_sub p16 12345 12344 = Ok 192.
Proof. ex. Qed.

(** C129. If numbers of binary exponent e have at least e fraction bits then integers below 2^(e+1) are exact: so are
    their conversions, and sums, differences, products and whole quotients that stay below 2^(e+1). *)
Theorem C129_from_int c e i : valid_cfg c -> exp_ok c -> frac_fits c \/ 32 <= cF c -> 0 <= e <= fracbits c e -> Z.abs i < 2 ^ (e + 1) -> - 2 ^ 31 < i < 2 ^ 31 ->
  (exists v, real c v /\ (value c v == inject_Z i)%Q) /\
  (forall r, p_of_int c i = Ok r -> (value c r == inject_Z i)%Q) /\ (roomy c -> exists r, p_of_int c i = Ok r).
Proof. exact (from_int c e i). Qed.
Print Assumptions C129_from_int.
Theorem C129_arithmetic c e i j a b : valid_cfg c -> exp_ok c -> add_fits c -> 0 <= e <= fracbits c e -> real c a -> real c b ->
  (value c a == inject_Z i)%Q -> (value c b == inject_Z j)%Q ->
  (forall r, p_add c a b = Ok r -> Z.abs (i + j) < 2 ^ (e + 1) -> (value c r == inject_Z (i + j))%Q) /\
  (forall r, p_sub c a b = Ok r -> Z.abs (i - j) < 2 ^ (e + 1) -> (value c r == inject_Z (i - j))%Q) /\
  (forall r, p_mul c a b = Ok r -> Z.abs (i * j) < 2 ^ (e + 1) -> (value c r == inject_Z (i * j))%Q) /\
  (forall r q, p_div c a b = Ok r -> j <> 0 -> i = q * j -> Z.abs q < 2 ^ (e + 1) -> (value c r == inject_Z q)%Q).
Proof. exact (ints c e i j a b). Qed.
Print Assumptions C129_arithmetic.
Example C129_ex : valid_cfg p16 /\ exp_ok p16 /\ add_fits p16 /\ roomy p16 /\ 0 <= 8 <= fracbits p16 8 /\ fracbits p8 3 = 2 /\
  p_of_int p16 15 = Ok 28416 /\ (value p16 28416 == 15)%Q /\ p_of_int p16 17 = Ok 28736 /\ p_mul p16 28416 28736 = Ok 31740 /\ (value p16 31740 == 255)%Q.
Proof. ex. Qed.
