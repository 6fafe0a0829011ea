(** Properties of the float traits, analyze and numeric_limits: C52, C54, C55. *)
From Coq Require Import ZArith QArith Qabs List.
From Verif Require Import Res Traits Cfg Spec Posit Configs Examples Misc3 Misc4 Conv7.
Import ListNotations.
Open Scope Z_scope.

(** C52. The constants of a float trait decode to what they are named after, for all exponent and fraction widths. *)
Theorem C52_trait_constants eb fb den :
  fmt_ok eb fb ->
  let t := any_floattrait eb fb den in
  let finite b q := 0 <= b < 2 ^ (eb + fb + 1) /\ ieee_val eb fb b = FinVal q in
  (exists q, finite (t_one t) q /\ (q == 1)%Q) /\ (exists q, finite (t_two t) q /\ (q == 2)%Q) /\
  (exists q, finite (t_max t) q /\ (forall b' q', finite b' q' -> (q' <= q)%Q)) /\
  (exists q, finite (t_lowest t) q /\ (forall b' q', finite b' q' -> (q <= q')%Q)) /\
  (exists q, finite (t_min t) q /\ (q == pow2 (2 - 2 ^ (eb - 1)))%Q /\
     (forall b' q', finite b' q' -> (b' / 2 ^ fb) mod 2 ^ eb <> 0 -> (q <= Qabs q')%Q)) /\
  (0 <= t_pinf t < 2 ^ (eb + fb + 1) /\ ieee_val eb fb (t_pinf t) = InfVal false) /\
  (0 <= t_ninf t < 2 ^ (eb + fb + 1) /\ ieee_val eb fb (t_ninf t) = InfVal true) /\
  (0 <= t_nan t < 2 ^ (eb + fb + 1) /\ ieee_val eb fb (t_nan t) = NaNVal).
Proof. exact (trait_constants eb fb den). Qed.
Print Assumptions C52_trait_constants.
(** The bias, the largest and all-ones exponent fields and the sign bit are those of the encoding. *)
Theorem C52_trait_fields eb fb den b : fmt_ok eb fb -> 0 <= b < 2 ^ (eb + fb + 1) ->
  let t := any_floattrait eb fb den in
  let x := (b / 2 ^ t_fbits t) mod 2 ^ t_ebits t in
  0 <= x <= t_emask t /\
  (forall q, ieee_val eb fb b = FinVal q -> x <= t_emax t /\ (1 <= x -> scale q (x - t_bias t))) /\
  (x <= t_emax t -> exists q, ieee_val eb fb b = FinVal q) /\
  (b < t_signbit t -> 0 <= b + t_signbit t < 2 ^ (eb + fb + 1) /\
     forall q, ieee_val eb fb b = FinVal q -> exists q', ieee_val eb fb (b + t_signbit t) = FinVal q' /\ (q' == - q)%Q).
Proof. exact (trait_fields eb fb den b). Qed.
Print Assumptions C52_trait_fields.
(** The handwritten traits are instances of the generic one. *)
Theorem C52_named_traits :
  half_trait = any_floattrait 5 10 true /\ single_trait = any_floattrait 8 23 true /\
  double_trait = any_floattrait 11 52 true /\ fmt_ok 5 10 /\ fmt_ok 8 23 /\ fmt_ok 11 52 /\ fmt_ok 5 2 /\ fmt_ok 8 7.
Proof. exact named_traits. Qed.
Print Assumptions C52_named_traits.
Example C52_ex : ieee_val 5 2 (t_max microfloat_trait) = FinVal (1 * (inject_Z 7 * pow2 13)).
Proof. reflexivity. Qed.

(** C54. Full statement: for every instantiation and finite nonzero posit, analyze reports sign, regime, field sizes
    adding up to totalbits and exponent and fraction that determine the value. Proved for [analyze_ok] instantiations
    (es > 0 or a holder below 32 bits; FT below 64 bits or a 64 bit holder); for all others analyze shifts by the width
    of its operand, see the refutation. *)
Theorem C54_analyze_partial c v :
  valid_cfg c -> real c v -> v <> 0 -> analyze_ok c ->
  exists i b l, p_analyze c v = Ok i /\ i_infinity i = false /\ i_nan i = false /\ i_sign i = (v <? 0) /\
    bits_of (Z.to_nat (cN c - 1)) (Z.abs v) = b :: l /\
    (let r := Z.of_nat (run b (b :: l)) in
     i_k i = (if b then r - 1 else - r) /\ i_rs i = Z.min (cN c - 1) (r + 1)) /\
    1 + i_rs i + i_es i + i_fs i = cN c /\ 0 <= i_es i <= ces c /\ 0 <= i_fs i /\ (i_es i < ces c -> i_fs i = 0) /\
    0 <= i_exp i < 2 ^ ces c /\ 0 <= i_ifraction i < 2 ^ cF c /\
    (frac_fits c -> (value c v == uvalue (cF c) (i_sign i) (i_k i * 2 ^ ces c + i_exp i) (i_ifraction i))%Q) /\
    ((cN c - 1) * 2 ^ ces c <= 2 ^ 31 -> i_exponent i = i_k i * 2 ^ ces c + i_exp i).
Proof. exact (analyze_fields c v). Qed.
Print Assumptions C54_analyze_partial.
Theorem C54_analyze_refuted c v :
  valid_cfg c -> real c v -> v <> 0 -> ~ analyze_ok c -> p_analyze c v = UB ShiftCount.
Proof. exact (analyze_undefined c v). Qed.
Print Assumptions C54_analyze_refuted.
Theorem C54_analyze_special c v :
  valid_cfg c ->
  (is_inf c v -> exists i, p_analyze c v = Ok i /\ i_infinity i = true /\ i_nan i = false) /\
  (is_nan c v -> exists i, p_analyze c v = Ok i /\ i_infinity i = false /\ i_nan i = true) /\
  (v = 0 -> exists i, p_analyze c v = Ok i /\ i_infinity i = false /\ i_nan i = false /\ i_ifraction i = 0 /\ i_rs i = 0).
Proof. exact (analyze_special c v). Qed.
Print Assumptions C54_analyze_special.
Example C54_ex : valid_cfg p16 /\ real p16 (-20481) /\ analyze_ok p16 /\ frac_fits p16 /\ (cN p16 - 1) * 2 ^ ces p16 <= 2 ^ 31 /\
  p_analyze p16 (-20481) = Ok (PInfo false false 0 true 2 1 12 1 1 16) /\
  valid_cfg xmain /\ real xmain 5 /\ ~ analyze_ok xmain.
Proof. ex. Qed.

(** C55. epsilon() is the gap above one, and max() and min() are the powers of two named by max_exponent and
    min_exponent. The condition on WithNanInf excludes the single format in which one() is the largest posit. *)
Theorem C55_epsilon c :
  valid_cfg c -> exp_ok c -> add_fits c -> (csp c = WithNanInf -> cN c <> 3) ->
  exists eps n, p_epsilon c = Ok eps /\ real c eps /\ (value c eps == pow2 (- (cN c - 3 - ces c)))%Q /\
    p_next c (p_one c) = Ok n /\ real c n /\ p_add c (p_one c) eps = Ok n /\ (value c n == 1 + value c eps)%Q.
Proof. exact (epsilon c). Qed.
Print Assumptions C55_epsilon.
Theorem C55_exponents c :
  valid_cfg c -> exp_ok c ->
  exists lo hi, minexponent c = Ok lo /\ maxexponent c = Ok hi /\
    (value c (p_min c) == pow2 lo)%Q /\ (value c (p_max c) == pow2 hi)%Q.
Proof. exact (limits c). Qed.
Print Assumptions C55_exponents.
Example C55_ex : valid_cfg p16ni /\ exp_ok p16ni /\ add_fits p16ni /\ cN p16ni <> 3 /\ p_epsilon p16ni = Ok 256 /\
  minexponent p16ni = Ok (-28) /\ maxexponent p16ni = Ok 26 /\ valid_cfg xmain /\ exp_ok xmain /\ add_fits xmain.
Proof. ex. Qed.
