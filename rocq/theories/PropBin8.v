(** The class binary8tab with the tables its generator writes: C99-C101. *)
From Coq Require Import ZArith QArith Qabs Lia.
From Verif Require Import Res CInt Spec SpecTab SpecFloat SpecAny SpecGen SpecBin8 FloatOps PositF AnyFloat Gen Bin8 Examples PositFProof4 GenProof4 Bin8Proof Bin8Proof2.
Open Scope Z_scope.

(** In this file [rnd] is any rounding of float arithmetic, [rndd] of double arithmetic, and [ex] any function exp2 on
    floats that returns a neighbour of 2^x. [float_for 5 2 e r] says that the pattern r is the exact result e cut
    toward zero to the format, with overflow to infinity and results below the least normal number to 0. *)

(** C99. Full claim: every operator gives the exact result cut toward zero. Missing: for + the sum is first rounded
    to float, which can carry it up to a number of the format (refuted below). *)
Theorem C99_mul rnd a b : rounding 8 23 rnd -> is_b8 a -> is_b8 b ->
  exists r, b8_mul rnd a b = Ok r /\ is_b8 r /\ float_for 5 2 (x_mul (b8_val a) (b8_val b)) (r mod 256).
Proof. exact (fun R => b8_mul_ok rnd R a b). Qed.
Print Assumptions C99_mul.
Theorem C99_div rnd a b : rounding 8 23 rnd -> is_b8 a -> is_b8 b ->
  exists r, b8_div rnd a b = Ok r /\ is_b8 r /\ float_for 5 2 (x_div (b8_val a) (b8_val b)) (r mod 256).
Proof. exact (fun R => b8_div_ok rnd R a b). Qed.
Print Assumptions C99_div.
Theorem C99_inv rnd a : rounding 8 23 rnd -> is_b8 a ->
  exists r, b8_inv rnd a = Ok r /\ is_b8 r /\ float_for 5 2 (x_div (FinVal 1) (b8_val a)) (r mod 256).
Proof. exact (fun R => b8_inv_ok rnd R a). Qed.
Print Assumptions C99_inv.
Theorem C99_square rnd a : rounding 8 23 rnd -> is_b8 a ->
  exists r, b8_square rnd a = Ok r /\ is_b8 r /\ float_for 5 2 (x_mul (b8_val a) (b8_val a)) (r mod 256).
Proof. exact (fun R => b8_square_ok rnd R a). Qed.
Print Assumptions C99_square.
Theorem C99_half rnd a : rounding 8 23 rnd -> is_b8 a ->
  exists r, b8_half rnd a = Ok r /\ is_b8 r /\ float_for 5 2 (x_div (b8_val a) (FinVal 2)) (r mod 256).
Proof. exact (fun R => b8_half_ok rnd R a). Qed.
Print Assumptions C99_half.
Theorem C99_add_partial rnd a b : rounding 8 23 rnd -> is_b8 a -> is_b8 b ->
  exists r, b8_add rnd a b = Ok r /\ is_b8 r /\ float_for 5 2 (x_round 8 23 rnd (x_add (b8_val a) (b8_val b))) (r mod 256).
Proof. exact (fun R => b8_add_ok rnd R a b). Qed.
Print Assumptions C99_add_partial.
(** 57344 - 2^-16 gives 57344. *)
Theorem C99_add_truncates_refuted : exists a b p q, is_b8 a /\ is_b8 b /\ b8_val a = FinVal p /\ b8_val b = FinVal q /\
  b8_add (rne 8 23) a b = Ok a /\ (p + q < p)%Q /\ (0 < p + q)%Q.
Proof. exact b8_add_up. Qed.
Print Assumptions C99_add_truncates_refuted.
(** exp2: no number of the format lies strictly between the result and 2^x, results below the least normal number
    aside, which may be 0. *)
Theorem C99_exp2 ex v x : exp2_float 8 23 ex -> is_b8 v -> b8_val v = FinVal x ->
  exists r, b8_exp2 ex v = Ok r /\ is_b8 r /\
  (forall w, is_float 5 2 w -> (least_normal 5 <= w)%Q -> le_exp2 w x -> ext_le (FinVal w) (b8_val r)) /\
  (forall w, is_float 5 2 w -> (0 < w)%Q -> ge_exp2 w x -> ext_le (b8_val r) (FinVal w)).
Proof. exact (fun E => b8_exp2_ok ex E v x). Qed.
Print Assumptions C99_exp2.
(** exp2 of infinity is infinity, of -infinity 0, of NaN a NaN. *)
Theorem C99_exp2_special ex v : exp2_float 8 23 ex -> is_b8 v -> (forall x, b8_val v <> FinVal x) ->
  exists r, b8_exp2 ex v = Ok r /\ is_b8 r /\
  (b8_val v = InfVal false -> b8_val r = InfVal false) /\ (b8_val v = InfVal true -> same_ext (b8_val r) (FinVal 0)) /\ (b8_val v = NaNVal -> b8_val r = NaNVal).
Proof. exact (fun E => b8_exp2_special ex E v). Qed.
Print Assumptions C99_exp2_special.
Example C99_special_ex : b8_val 124 = InfVal false /\ b8_val (-4) = InfVal true /\ b8_val 126 = NaNVal.
Proof. vm_compute. auto. Qed.
(** 3 * (-3/4) is cut to -2, 3 / (-3/4) is -4, 3 - 3/4 is cut to 2, 1/3 is cut to 5/16, 3/2, 9 is cut to 8, 2^3. *)
Example C99_ex : rounding 8 23 (rne 8 23) /\ exp2_float 8 23 ex_floor /\ is_b8 66 /\ is_b8 (-70) /\
  same_ext (b8_val 66) (FinVal 3) /\ same_ext (b8_val (-70)) (FinVal (-(3 # 4))) /\
  b8_mul (rne 8 23) 66 (-70) = Ok (-64) /\ b8_div (rne 8 23) 66 (-70) = Ok (-60) /\ b8_add (rne 8 23) 66 (-70) = Ok 64 /\
  b8_inv (rne 8 23) 66 = Ok 53 /\ b8_half (rne 8 23) 66 = Ok 62 /\ b8_square (rne 8 23) 66 = Ok 72 /\ b8_exp2 ex_floor 66 = Ok 72.
Proof.
  split; [exact (rnek_rounding FFloat)|]. split; [exact ex_floor_faithful|]. split; [split; [discriminate|reflexivity]|]. split; [split; [discriminate|reflexivity]|].
  split; [vm_compute; reflexivity|]. split; [vm_compute; reflexivity|].
  unfold b8_mul, b8_opmul, b8_div, b8_opdiv, b8_add, b8_opadd, b8_inv, b8_opinv, b8_half, b8_ophalf, b8_square, b8_opsquare, b8_exp2, b8_opexp2.
  rewrite !b8_at2 by (split; [discriminate|reflexivity]). rewrite !b8_at1 by (split; [discriminate|reflexivity]). vm_compute. repeat split; reflexivity.
Qed.

(** C100. Full claim: - negates, a - b is a + (-b), and <, <=, >, >=, ==, != are the order of the numbers. Missing:
    the code negates the member as an integer, which is right for 0, 2, -0 and -2 only, and compares the members as
    integers, which is reversed among negative numbers, and tells -0 from 0 (refuted below). *)
Theorem C100_negation_partial v : is_b8 v -> same_ext (b8_val (b8_neg v)) (x_opp (b8_val v)) <-> v mod 64 = 0.
Proof. exact (b8_neg_ok v). Qed.
Print Assumptions C100_negation_partial.
Theorem C100_subtraction_partial rnd a b : rounding 8 23 rnd -> is_b8 a -> is_b8 b ->
  exists r, b8_sub rnd a b = Ok r /\ is_b8 r /\ float_for 5 2 (x_round 8 23 rnd (x_add (b8_val a) (b8_val (b8_neg b)))) (r mod 256) /\
  (b mod 64 = 0 -> float_for 5 2 (x_round 8 23 rnd (x_add (b8_val a) (x_opp (b8_val b)))) (r mod 256)).
Proof. exact (fun R => b8_sub_ok rnd R a b). Qed.
Print Assumptions C100_subtraction_partial.
(** 1 - 1 is -3. *)
Theorem C100_subtraction_refuted : exists a r, is_b8 a /\ same_ext (b8_val a) (FinVal 1) /\ b8_sub (rne 8 23) a a = Ok r /\ same_ext (b8_val r) (FinVal (-3)).
Proof. exact b8_sub_wrong. Qed.
Print Assumptions C100_subtraction_refuted.
Theorem C100_order_partial a b : is_b8 a -> is_b8 b -> b8_val a <> NaNVal -> b8_val b <> NaNVal ->
  let A := b8_val a in let B := b8_val b in
  (0 <= a \/ 0 <= b -> ~ x_eq A B \/ a = b ->
     (b8_lt a b = true <-> x_lt A B) /\ (b8_le a b = true <-> x_lt A B \/ x_eq A B) /\
     (b8_gt a b = true <-> x_lt B A) /\ (b8_ge a b = true <-> x_lt B A \/ x_eq A B) /\
     (b8_eq a b = true <-> x_eq A B) /\ (b8_ne a b = true <-> ~ x_eq A B)) /\
  (a < 0 -> b < 0 ->
     (b8_lt a b = true <-> x_lt B A) /\ (b8_le a b = true <-> x_lt B A \/ x_eq A B) /\
     (b8_gt a b = true <-> x_lt A B) /\ (b8_ge a b = true <-> x_lt A B \/ x_eq A B) /\
     (b8_eq a b = true <-> x_eq A B) /\ (b8_ne a b = true <-> ~ x_eq A B)).
Proof. exact (b8_order a b). Qed.
Print Assumptions C100_order_partial.
(** -1 < -2. *)
Theorem C100_order_refuted : exists a b, is_b8 a /\ is_b8 b /\ same_ext (b8_val a) (FinVal (-1)) /\ same_ext (b8_val b) (FinVal (-2)) /\ b8_lt a b = true.
Proof. exact b8_order_wrong. Qed.
Print Assumptions C100_order_refuted.
(** -0 < 0. *)
Theorem C100_zeros_refuted : exists a, is_b8 a /\ same_ext (b8_val a) (FinVal 0) /\ b8_eq a b8_zero = false /\ b8_lt a b8_zero = true.
Proof. exact b8_zero_wrong. Qed.
Print Assumptions C100_zeros_refuted.
(** A NaN equals itself and is above every number that is not negative. *)
Theorem C100_nan_refuted : exists a, is_b8 a /\ b8_val a = NaNVal /\ b8_eq a a = true /\ forall b, is_b8 b -> 0 <= b -> b8_val b <> NaNVal -> b8_lt b a = true.
Proof. exact b8_nan_wrong. Qed.
Print Assumptions C100_nan_refuted.
Theorem C100_minmax_partial a b : is_b8 a -> is_b8 b -> b8_val a <> NaNVal -> b8_val b <> NaNVal ->
  let lo := b8_stdmin a b in let hi := b8_stdmax a b in
  (lo = a \/ lo = b) /\ (hi = a \/ hi = b) /\
  (0 <= a \/ 0 <= b -> ~ x_lt (b8_val a) (b8_val lo) /\ ~ x_lt (b8_val b) (b8_val lo) /\ ~ x_lt (b8_val hi) (b8_val a) /\ ~ x_lt (b8_val hi) (b8_val b)) /\
  (a < 0 -> b < 0 -> ~ x_lt (b8_val lo) (b8_val a) /\ ~ x_lt (b8_val lo) (b8_val b) /\ ~ x_lt (b8_val a) (b8_val hi) /\ ~ x_lt (b8_val b) (b8_val hi)).
Proof. exact (b8_minmax a b). Qed.
Print Assumptions C100_minmax_partial.
Example C100_ex : rounding 8 23 (rne 8 23) /\ is_b8 66 /\ is_b8 (-70) /\ is_b8 (-64) /\ b8_val 66 <> NaNVal /\ b8_val (-70) <> NaNVal /\ b8_val (-64) <> NaNVal /\
  -64 mod 64 = 0 /\ b8_neg (-64) = 64 /\ b8_sub (rne 8 23) 66 (-64) = Ok 69 /\ b8_lt (-70) 66 = true /\ b8_lt (-64) (-70) = false /\
  x_lt (b8_val (-64)) (b8_val (-70)) /\ b8_stdmin (-70) 66 = -70.
Proof.
  split; [exact (rnek_rounding FFloat)|]. do 3 (split; [split; [discriminate|reflexivity]|]). do 3 (split; [vm_compute; discriminate|]).
  unfold b8_sub, b8_add, b8_opadd. rewrite b8_at2 by (vm_compute; intuition discriminate). vm_compute. repeat split; reflexivity.
Qed.

(** C101. Full claim: conversions to float and double keep the number, conversion to int cuts the fraction, abs,
    is_negative and the constants are what their names say, and the constructors store the number given. Missing:
    the constructors from int, float and double store nothing, and numeric_limits::epsilon is wrong (refuted below);
    infinity and NaN cannot be converted to int. *)
Theorem C101_to_float v : is_b8 v -> exists x, b8_to_float v = Ok x /\ 0 <= x < 2 ^ 32 /\ same_ext (ieee_val 8 23 x) (b8_val v).
Proof. exact (b8_to_float_ok v). Qed.
Print Assumptions C101_to_float.
Theorem C101_to_double rndd v : rounding 11 52 rndd -> is_b8 v -> exists x, b8_to_double rndd v = Ok x /\ same_ext (ieee_val 11 52 x) (b8_val v).
Proof. exact (fun R => b8_to_double_ok rndd R v). Qed.
Print Assumptions C101_to_double.
Theorem C101_to_int_partial v : is_b8 v -> match b8_val v with FinVal q => exists z, b8_to_int v = Ok z /\ truncated q z | _ => b8_to_int v = UB FloatToInt end.
Proof. exact (b8_to_int_ok v). Qed.
Print Assumptions C101_to_int_partial.
Theorem C101_abs v : is_b8 v -> 0 <= b8_abs v < 128 /\ same_ext (b8_val (b8_abs v)) (x_abs (b8_val v)).
Proof. exact (b8_abs_ok v). Qed.
Print Assumptions C101_abs.
Theorem C101_is_negative v : is_b8 v -> (x_neg (b8_val v) -> b8_is_negative v = true) /\ (x_neg (x_opp (b8_val v)) -> b8_is_negative v = false).
Proof. exact (b8_is_negative_ok v). Qed.
Print Assumptions C101_is_negative.
Theorem C101_constants : is_b8 b8_max /\ is_b8 b8_min /\ is_b8 b8_one /\ is_b8 b8_afterone /\ is_b8 b8_zero /\
  same_ext (b8_val b8_one) (FinVal 1) /\ same_ext (b8_val b8_zero) (FinVal 0) /\ same_ext (b8_val b8_min) (FinVal (least_normal 5)) /\
  (exists m, b8_val b8_max = FinVal m /\ forall v q, is_b8 v -> b8_val v = FinVal q -> (q <= m)%Q) /\
  (exists e, b8_val b8_afterone = FinVal e /\ (1 < e)%Q /\ forall v q, is_b8 v -> b8_val v = FinVal q -> (q <= 1)%Q \/ (e <= q)%Q).
Proof. exact b8_constants. Qed.
Print Assumptions C101_constants.
(** numeric_limits<binary8tab>::epsilon() is -5/2. *)
Theorem C101_epsilon_refuted : exists r, b8_epsilon (rne 8 23) = Ok r /\ same_ext (b8_val r) (FinVal (-(5 # 2))).
Proof. exact b8_epsilon_wrong. Qed.
Print Assumptions C101_epsilon_refuted.
(** Whatever the argument, reading the number built is reading an uninitialised member. *)
Theorem C101_constructors_refuted x : b8_of_int x = UB Uninit /\ b8_of_float x = UB Uninit /\ b8_of_double x = UB Uninit.
Proof. exact (conj eq_refl (conj eq_refl eq_refl)). Qed.
Print Assumptions C101_constructors_refuted.
Example C101_ex : is_b8 (-70) /\ is_b8 (-63) /\ rounding 11 52 (rne 11 52) /\ b8_to_float (-70) = Ok 0xbf400000 /\ b8_to_int (-63) = Ok (-2) /\ b8_to_int 124 = UB FloatToInt /\
  same_ext (b8_val (-63)) (FinVal (-(5 # 2))) /\ b8_val 124 = InfVal false /\ b8_abs (-70) = 58 /\ b8_is_negative (-70) = true /\ x_neg (b8_val (-70)).
Proof.
  do 2 (split; [split; [discriminate|reflexivity]|]). split; [exact (rnek_rounding FDouble)|].
  unfold b8_to_int. rewrite !b8_float_at by (split; [discriminate|reflexivity]). vm_compute. repeat split; reflexivity.
Qed.
