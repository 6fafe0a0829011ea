(** anyfloat_emu: small floats that compute in float or double. *)
From Coq Require Import ZArith QArith Qabs.
From Verif Require Import Res CInt Bits Traits Unpacked Cfg Posit Spec SpecFloat SpecAny FloatOps PositF AnyFloat Examples FloatProof2 PositFProof4
  AnyProof2 AnyProof3 AnyProof4 AnyProof5 AnyProof6 AnyProof7.
From Verif Require Misc4.
Open Scope Z_scope.

(** In this file [eb] and [fb] are the exponent and fraction bits of the small format, [k] is float or double,
    and [rnd] is any rounding of the two. *)

(** C74. Construction from a float or double. Full claim: every pattern, and every small format no larger than
    the argument type. Missing: signalling NaNs, and subnormal doubles for 32 bit formats. *)
Theorem C74_construct_partial eb fb k b :
  fmt_ok eb fb -> eb <= f_eb k -> fb <= f_fb k ->
  (eb + fb + 1 <= 16 \/ f_fb k <= eb + fb + 1 \/
   match ieee_val (f_eb k) (f_fb k) b with FinVal q => (q == 0)%Q \/ (least_normal (f_eb k) <= Qabs q)%Q | _ => True end) ->
  0 <= b < 2 ^ (f_eb k + f_fb k + 1) -> (ieee_val (f_eb k) (f_fb k) b = NaNVal -> quiet (f_eb k) (f_fb k) b) ->
  exists r, af_of eb fb k b = Ok r /\ float_for eb fb (ieee_val (f_eb k) (f_fb k) b) r.
Proof. exact (af_of_gen eb fb k b). Qed.
Print Assumptions C74_construct_partial.
Theorem C74_signalling_refuted : exists b, 0 <= b < 2 ^ 32 /\ ieee_val 8 23 b = NaNVal /\
  exists r, af_of 5 10 FFloat b = Ok r /\ ieee_val 5 10 r = InfVal false.
Proof. exact af_of_snan. Qed.
Print Assumptions C74_signalling_refuted.
Theorem C74_subnormal_refuted : exists b, 0 <= b < 2 ^ 64 /\ (exists q, ieee_val 11 52 b = FinVal q) /\ af_of 8 23 FDouble b = UB ShiftCount.
Proof. exact af_of_shift. Qed.
Print Assumptions C74_subnormal_refuted.
Example C74_ex : fmt_ok 5 10 /\ 5 <= f_eb FFloat /\ 10 <= f_fb FFloat /\ 5 + 10 + 1 <= 16 /\ 0 <= 0x40490fdb < 2 ^ (f_eb FFloat + f_fb FFloat + 1) /\
  ieee_val 8 23 0x40490fdb <> NaNVal /\ af_of 5 10 FFloat 0x40490fdb = Ok 16968 /\ ieee_val 5 10 16968 = FinVal (1608 # 512).
Proof. exf. Qed.
Example C74_ex_nan : quiet 8 23 0x7fc00001 /\ ieee_val 8 23 0x7fc00001 = NaNVal /\ fmt_ok 8 23 /\ (least_normal 11 <= Qabs (pow2 (-3)))%Q /\
  ieee_val 11 52 0x3fc0000000000000 = FinVal (4503599627370496 # 36028797018963968) /\ af_of 8 23 FDouble 0x3fc0000000000000 = Ok 0x3e000000.
Proof. exf. Qed.

(** C75. Conversion to the implementation type keeps the number. Missing: numbers below the normal range of that
    type, which become zero. *)
Theorem C75_convert_partial eb fb k v :
  emulated eb fb (f_eb k) (f_fb k) -> 0 <= v < 2 ^ (eb + fb + 1) ->
  exists x, af_to eb fb k v = Ok x /\ 0 <= x < 2 ^ (f_eb k + f_fb k + 1) /\
    same_ext (ieee_val (f_eb k) (f_fb k) x) (seen eb fb (f_eb k) v).
Proof. exact (af_to_value eb fb k v). Qed.
Print Assumptions C75_convert_partial.
(** If float has room for the small format, no number is lost. *)
Theorem C75_convert_room eb fb k v :
  emulated eb fb (f_eb k) (f_fb k) -> roomy_fmt eb fb (f_eb k) (f_fb k) -> 0 <= v < 2 ^ (eb + fb + 1) ->
  exists x, af_to eb fb k v = Ok x /\ 0 <= x < 2 ^ (f_eb k + f_fb k + 1) /\
    same_ext (ieee_val (f_eb k) (f_fb k) x) (ieee_val eb fb v).
Proof. exact (af_to_room eb fb k v). Qed.
Print Assumptions C75_convert_room.
Theorem C75_flush_refuted : exists v q, 0 <= v < 2 ^ 16 /\ ieee_val 8 7 v = FinVal q /\ is_float 8 23 q /\ (0 < q)%Q /\ af_to 8 7 FFloat v = Ok 0.
Proof. exact af_to_flush. Qed.
Print Assumptions C75_flush_refuted.
Example C75_ex : emulated 5 2 8 23 /\ emulated 5 10 8 23 /\ emulated 8 7 8 23 /\ emulated 8 23 8 23 /\ emulated 11 52 11 52 /\
  roomy_fmt 5 2 8 23 /\ roomy_fmt 5 10 8 23 /\ 0 <= 16968 < 2 ^ (5 + 10 + 1) /\ af_to 5 10 FFloat 16968 = Ok 0x40490000 /\ af_to 5 10 FFloat 1 = Ok 0x33800000.
Proof. exf. Qed.

(** C76. The round trip through the implementation type keeps normal numbers and infinities, keeps NaN a NaN,
    and turns the numbers below the normal range into zero. *)
Theorem C76_round_trip eb fb k v :
  emulated eb fb (f_eb k) (f_fb k) -> 0 <= v < 2 ^ (eb + fb + 1) ->
  exists x r, af_to eb fb k v = Ok x /\ af_of eb fb k x = Ok r /\
  match ieee_val eb fb v with
  | FinVal q => if Qle_bool (least_normal eb) (Qabs q) then r = v else r = 0
  | InfVal _ => r = v
  | NaNVal => ieee_val eb fb r = NaNVal
  end.
Proof. exact (fun EM => af_round_trip eb fb k EM v). Qed.
Print Assumptions C76_round_trip.
Example C76_ex : emulated 5 10 8 23 /\ Qle_bool (least_normal 5) (Qabs (201 # 64)) = true /\
  af_to 5 10 FFloat 16968 = Ok 0x40490000 /\ af_of 5 10 FFloat 0x40490000 = Ok 16968 /\ af_of 5 10 FFloat 0x33800000 = Ok 0.
Proof. exf. Qed.

(** C77. Product: the exact product of the operands, rounded to the implementation type, truncated to the small
    format. When that type has room the intermediate rounding does not show. *)
Theorem C77_multiply eb fb k rnd a b :
  emulated eb fb (f_eb k) (f_fb k) -> (forall j, rounding (f_eb j) (f_fb j) (rnd j)) ->
  0 <= a < 2 ^ (eb + fb + 1) -> 0 <= b < 2 ^ (eb + fb + 1) ->
  exists r, af_mul eb fb k rnd a b = Ok r /\
    float_for eb fb (x_round (f_eb k) (f_fb k) (rnd k) (x_mul (seen eb fb (f_eb k) a) (seen eb fb (f_eb k) b))) r.
Proof. exact (fun EM RN => af_mul_spec eb fb k rnd EM RN a b). Qed.
Print Assumptions C77_multiply.
Theorem C77_multiply_exact eb fb k rnd a b :
  emulated eb fb (f_eb k) (f_fb k) -> roomy_fmt eb fb (f_eb k) (f_fb k) -> (forall j, rounding (f_eb j) (f_fb j) (rnd j)) ->
  0 <= a < 2 ^ (eb + fb + 1) -> 0 <= b < 2 ^ (eb + fb + 1) ->
  exists r, af_mul eb fb k rnd a b = Ok r /\ float_for eb fb (x_mul (ieee_val eb fb a) (ieee_val eb fb b)) r.
Proof. exact (fun EM RM RN => af_mul_exact eb fb k rnd EM RM RN a b). Qed.
Print Assumptions C77_multiply_exact.
Theorem C77_commutative eb fb k rnd a b :
  emulated eb fb (f_eb k) (f_fb k) -> (forall j, rounding (f_eb j) (f_fb j) (rnd j)) ->
  0 <= a < 2 ^ (eb + fb + 1) -> 0 <= b < 2 ^ (eb + fb + 1) -> x_mul (seen eb fb (f_eb k) a) (seen eb fb (f_eb k) b) <> NaNVal ->
  af_mul eb fb k rnd a b = af_mul eb fb k rnd b a.
Proof. exact (fun EM RN => af_mul_comm eb fb k rnd EM RN a b). Qed.
Print Assumptions C77_commutative.
Theorem C77_one eb fb k rnd v q :
  emulated eb fb (f_eb k) (f_fb k) -> (forall j, rounding (f_eb j) (f_fb j) (rnd j)) ->
  0 <= v < 2 ^ (eb + fb + 1) -> ieee_val eb fb v = FinVal q -> (least_normal eb <= Qabs q)%Q ->
  af_mul eb fb k rnd (af_one eb fb) v = Ok v.
Proof. exact (fun EM RN => af_mul_one eb fb k rnd EM RN v q). Qed.
Print Assumptions C77_one.
Example C77_ex : emulated 5 10 8 23 /\ roomy_fmt 5 10 8 23 /\ 0 <= 0x4248 < 2 ^ (5 + 10 + 1) /\ 0 <= 0xc149 < 2 ^ (5 + 10 + 1) /\
  af_mul 5 10 FFloat rnek 0x4248 0xc149 = Ok 51238 /\ x_mul (seen 5 10 8 0x4248) (seen 5 10 8 0xc149) <> NaNVal /\
  af_mul 5 10 FFloat rnek 0x7bff 0x7bff = Ok 0x7bff.
Proof. exf. Qed.
Example C77_ex_round j : rounding (f_eb j) (f_fb j) (rnek j).
Proof. exact (rnek_rounding j). Qed.

(** C78. Quotient and inverse. *)
Theorem C78_divide eb fb k rnd a b :
  emulated eb fb (f_eb k) (f_fb k) -> (forall j, rounding (f_eb j) (f_fb j) (rnd j)) ->
  0 <= a < 2 ^ (eb + fb + 1) -> 0 <= b < 2 ^ (eb + fb + 1) ->
  exists r, af_div eb fb k rnd a b = Ok r /\
    float_for eb fb (x_round (f_eb k) (f_fb k) (rnd k) (x_div (seen eb fb (f_eb k) a) (seen eb fb (f_eb k) b))) r.
Proof. exact (fun EM RN => af_div_spec eb fb k rnd EM RN a b). Qed.
Print Assumptions C78_divide.
Theorem C78_divide_exact eb fb k rnd a b :
  emulated eb fb (f_eb k) (f_fb k) -> roomy_fmt eb fb (f_eb k) (f_fb k) -> (forall j, rounding (f_eb j) (f_fb j) (rnd j)) ->
  0 <= a < 2 ^ (eb + fb + 1) -> 0 <= b < 2 ^ (eb + fb + 1) ->
  exists r, af_div eb fb k rnd a b = Ok r /\ float_for eb fb (x_div (ieee_val eb fb a) (ieee_val eb fb b)) r.
Proof. exact (fun EM RM RN => af_div_exact eb fb k rnd EM RM RN a b). Qed.
Print Assumptions C78_divide_exact.
Theorem C78_inverse eb fb k rnd v :
  emulated eb fb (f_eb k) (f_fb k) -> (forall j, rounding (f_eb j) (f_fb j) (rnd j)) -> 0 <= v < 2 ^ (eb + fb + 1) ->
  exists r, af_inv eb fb k rnd v = Ok r /\
    float_for eb fb (x_round (f_eb k) (f_fb k) (rnd k) (x_div (FinVal 1) (seen eb fb (f_eb k) v))) r.
Proof. exact (fun EM RN => af_inv_spec eb fb k rnd EM RN v). Qed.
Print Assumptions C78_inverse.
Theorem C78_inverse_exact eb fb k rnd v :
  emulated eb fb (f_eb k) (f_fb k) -> roomy_fmt eb fb (f_eb k) (f_fb k) -> (forall j, rounding (f_eb j) (f_fb j) (rnd j)) ->
  0 <= v < 2 ^ (eb + fb + 1) ->
  exists r, af_inv eb fb k rnd v = Ok r /\ float_for eb fb (x_div (FinVal 1) (ieee_val eb fb v)) r.
Proof. exact (fun EM RM RN => af_inv_exact eb fb k rnd EM RM RN v). Qed.
Print Assumptions C78_inverse_exact.
Example C78_ex : emulated 5 10 8 23 /\ roomy_fmt 5 10 8 23 /\ 0 <= 0x4248 < 2 ^ (5 + 10 + 1) /\ 0 <= 0xc149 < 2 ^ (5 + 10 + 1) /\
  af_div 5 10 FFloat rnek 0x4248 0xc149 = Ok 48320 /\ af_inv 5 10 FFloat rnek 0x4248 = Ok 13592 /\ af_div 5 10 FFloat rnek 0x3c00 0x8000 = Ok 31744.
Proof. exf. Qed.

(** C79. Sum and difference. Full claim: the truncation of the exact sum. Missing: the sum is rounded to the
    implementation type first, and that can show. *)
Theorem C79_add_partial eb fb k rnd a b :
  emulated eb fb (f_eb k) (f_fb k) -> (forall j, rounding (f_eb j) (f_fb j) (rnd j)) ->
  0 <= a < 2 ^ (eb + fb + 1) -> 0 <= b < 2 ^ (eb + fb + 1) ->
  (a = 0 -> af_add eb fb k rnd a b = Ok b) /\ (b = 0 -> af_add eb fb k rnd a b = Ok a) /\
  (a <> 0 -> b <> 0 -> exists r, af_add eb fb k rnd a b = Ok r /\
     float_for eb fb (x_round (f_eb k) (f_fb k) (rnd k) (x_add (seen eb fb (f_eb k) a) (seen eb fb (f_eb k) b))) r).
Proof. exact (fun EM RN => af_add_spec eb fb k rnd EM RN a b). Qed.
Print Assumptions C79_add_partial.
Theorem C79_subtract_partial eb fb k rnd a b :
  emulated eb fb (f_eb k) (f_fb k) -> (forall j, rounding (f_eb j) (f_fb j) (rnd j)) ->
  0 <= a < 2 ^ (eb + fb + 1) -> 0 <= b < 2 ^ (eb + fb + 1) ->
  (a = 0 -> af_sub eb fb k rnd a b = Ok (af_neg eb fb b)) /\ (af_neg eb fb b = 0 -> af_sub eb fb k rnd a b = Ok a) /\
  (a <> 0 -> af_neg eb fb b <> 0 -> exists r, af_sub eb fb k rnd a b = Ok r /\
     float_for eb fb (x_round (f_eb k) (f_fb k) (rnd k) (x_add (seen eb fb (f_eb k) a) (x_opp (seen eb fb (f_eb k) b)))) r).
Proof. exact (fun EM RN => af_sub_spec eb fb k rnd EM RN a b). Qed.
Print Assumptions C79_subtract_partial.
Theorem C79_commutative eb fb k rnd a b :
  emulated eb fb (f_eb k) (f_fb k) -> (forall j, rounding (f_eb j) (f_fb j) (rnd j)) ->
  0 <= a < 2 ^ (eb + fb + 1) -> 0 <= b < 2 ^ (eb + fb + 1) -> x_add (seen eb fb (f_eb k) a) (seen eb fb (f_eb k) b) <> NaNVal ->
  af_add eb fb k rnd a b = af_add eb fb k rnd b a.
Proof. exact (fun EM RN => af_add_comm eb fb k rnd EM RN a b). Qed.
Print Assumptions C79_commutative.
(** The sum of the half floats 65504 and -2^-14 is 65504. *)
Theorem C79_truncation_refuted : exists a b p q, 0 <= a < 2 ^ 16 /\ 0 <= b < 2 ^ 16 /\ ieee_val 5 10 a = FinVal p /\ ieee_val 5 10 b = FinVal q /\
  af_add 5 10 FFloat rnek a b = Ok a /\ (p + q < p)%Q /\ (0 < p + q)%Q.
Proof. exact af_add_up. Qed.
Print Assumptions C79_truncation_refuted.
Example C79_ex : emulated 5 10 8 23 /\ 0 <= 0x4248 < 2 ^ (5 + 10 + 1) /\ 0 <= 0xc149 < 2 ^ (5 + 10 + 1) /\ 0x4248 <> 0 /\ af_neg 5 10 0xc149 <> 0 /\
  af_add 5 10 FFloat rnek 0x4248 0xc149 = Ok 14328 /\ af_sub 5 10 FFloat rnek 0x4248 0xc149 = Ok 17864.
Proof. exf. Qed.

(** C80. Multiply and add, twice and half. The product of fma is rounded before the addition. *)
Theorem C80_fma eb fb k rnd a b c :
  emulated eb fb (f_eb k) (f_fb k) -> (forall j, rounding (f_eb j) (f_fb j) (rnd j)) ->
  0 <= a < 2 ^ (eb + fb + 1) -> 0 <= b < 2 ^ (eb + fb + 1) -> 0 <= c < 2 ^ (eb + fb + 1) ->
  exists r, af_fma eb fb k rnd a b c = Ok r /\
    float_for eb fb (x_round (f_eb k) (f_fb k) (rnd k)
      (x_add (x_round (f_eb k) (f_fb k) (rnd k) (x_mul (seen eb fb (f_eb k) a) (seen eb fb (f_eb k) b))) (seen eb fb (f_eb k) c))) r.
Proof. exact (fun EM RN => af_fma_spec eb fb k rnd EM RN a b c). Qed.
Print Assumptions C80_fma.
Theorem C80_twice eb fb k rnd v :
  emulated eb fb (f_eb k) (f_fb k) -> (forall j, rounding (f_eb j) (f_fb j) (rnd j)) -> 0 <= v < 2 ^ (eb + fb + 1) ->
  exists r, af_twice eb fb k rnd v = Ok r /\
    float_for eb fb (x_round (f_eb k) (f_fb k) (rnd k) (x_mul (FinVal 2) (seen eb fb (f_eb k) v))) r.
Proof. exact (fun EM RN => af_twice_spec eb fb k rnd EM RN v). Qed.
Print Assumptions C80_twice.
Theorem C80_half eb fb rnd v :
  (forall j, rounding (f_eb j) (f_fb j) (rnd j)) -> emulated eb fb 8 23 -> 0 <= v < 2 ^ (eb + fb + 1) ->
  exists r, af_half eb fb FFloat rnd v = Ok r /\ float_for eb fb (x_mul (FinVal (1 # 2)) (seen eb fb 8 v)) r.
Proof. exact (fun RN => af_half_float eb fb rnd RN v). Qed.
Print Assumptions C80_half.
Theorem C80_half_double eb fb rnd v :
  (forall j, rounding (f_eb j) (f_fb j) (rnd j)) -> emulated eb fb 11 52 -> 0 <= v < 2 ^ (eb + fb + 1) ->
  exists r, af_half eb fb FDouble rnd v = Ok r /\
    float_for eb fb (x_round 11 52 (rnd FDouble) (x_mul (FinVal (1 # 2)) (seen eb fb 11 v))) r.
Proof. exact (fun RN => af_half_double eb fb rnd RN v). Qed.
Print Assumptions C80_half_double.
(** In double itself half of the largest number below twice the least normal one is rounded up. *)
Theorem C80_half_double_refuted : exists v r p q, 0 <= v < 2 ^ 64 /\ ieee_val 11 52 v = FinVal p /\ af_half 11 52 FDouble rnek v = Ok r /\
  ieee_val 11 52 r = FinVal q /\ ((1 # 2) * p < q)%Q.
Proof. exact af_half_up. Qed.
Print Assumptions C80_half_double_refuted.
Example C80_ex : emulated 5 10 8 23 /\ emulated 11 52 11 52 /\ 0 <= 0x4248 < 2 ^ (5 + 10 + 1) /\ 0 <= 0xc149 < 2 ^ (5 + 10 + 1) /\
  af_fma 5 10 FFloat rnek 0x4248 0xc149 0x3c00 = Ok 51020 /\ af_twice 5 10 FFloat rnek 0x4248 = Ok 17992 /\
  af_half 5 10 FFloat rnek 0x4248 = Ok 15944 /\ af_half 5 10 FFloat rnek 0x400 = Ok 0 /\ af_half 11 52 FDouble rnek 0x4000000000000000 = Ok 0x3ff0000000000000.
Proof. exf. Qed.

(** C81. Comparisons, min and max. Full claim: those of the numbers, NaN being unordered. Missing: numbers below the
    normal range of the implementation type, which count as zero. *)
Theorem C81_compare_partial eb fb k a b :
  emulated eb fb (f_eb k) (f_fb k) -> 0 <= a < 2 ^ (eb + fb + 1) -> 0 <= b < 2 ^ (eb + fb + 1) ->
  let A := seen eb fb (f_eb k) a in let B := seen eb fb (f_eb k) b in
  exists lt le gt ge eq ne,
  af_lt eb fb k a b = Ok lt /\ af_le eb fb k a b = Ok le /\ af_gt eb fb k a b = Ok gt /\ af_ge eb fb k a b = Ok ge /\
  af_eq eb fb k a b = Ok eq /\ af_ne eb fb k a b = Ok ne /\
  (lt = true <-> x_lt A B) /\ (le = true <-> x_lt A B \/ x_eq A B) /\
  (gt = true <-> x_lt B A) /\ (ge = true <-> x_lt B A \/ x_eq A B) /\
  (eq = true <-> x_eq A B) /\ (ne = true <-> ~ x_eq A B).
Proof. exact (fun EM => af_orders eb fb k EM a b). Qed.
Print Assumptions C81_compare_partial.
Theorem C81_minmax_partial eb fb k a b :
  emulated eb fb (f_eb k) (f_fb k) -> 0 <= a < 2 ^ (eb + fb + 1) -> 0 <= b < 2 ^ (eb + fb + 1) ->
  let A := seen eb fb (f_eb k) a in let B := seen eb fb (f_eb k) b in
  A <> NaNVal -> B <> NaNVal ->
  exists lo hi, af_stdmin eb fb k a b = Ok lo /\ af_stdmax eb fb k a b = Ok hi /\ (lo = a \/ lo = b) /\ (hi = a \/ hi = b) /\
    ~ x_lt A (seen eb fb (f_eb k) lo) /\ ~ x_lt B (seen eb fb (f_eb k) lo) /\ ~ x_lt (seen eb fb (f_eb k) hi) A /\ ~ x_lt (seen eb fb (f_eb k) hi) B.
Proof. exact (fun EM => af_minmax eb fb k EM a b). Qed.
Print Assumptions C81_minmax_partial.
(** The number is what is compared, if the implementation type has room. *)
Theorem C81_seen_room eb fb k v :
  emulated eb fb (f_eb k) (f_fb k) -> roomy_fmt eb fb (f_eb k) (f_fb k) -> 0 <= v < 2 ^ (eb + fb + 1) ->
  same_ext (seen eb fb (f_eb k) v) (ieee_val eb fb v).
Proof. exact (fun EM RM => seen_all eb fb k EM RM v). Qed.
Print Assumptions C81_seen_room.
Theorem C81_tiny_refuted : exists a b p q, 0 <= a < 2 ^ 16 /\ 0 <= b < 2 ^ 16 /\ ieee_val 8 7 a = FinVal p /\ ieee_val 8 7 b = FinVal q /\ ~ (p == q)%Q /\
  af_eq 8 7 FFloat a b = Ok true.
Proof. exact af_eq_tiny. Qed.
Print Assumptions C81_tiny_refuted.
Example C81_ex : emulated 5 10 8 23 /\ roomy_fmt 5 10 8 23 /\ seen 5 10 8 0x4248 <> NaNVal /\ seen 5 10 8 0xc149 <> NaNVal /\ af_lt 5 10 FFloat 0x4248 0xc149 = Ok false /\
  af_lt 5 10 FFloat 0xc149 0x4248 = Ok true /\ af_eq 5 10 FFloat 0 0x8000 = Ok true /\ af_stdmin 5 10 FFloat 0x4248 0xc149 = Ok 0xc149 /\
  af_stdmax 5 10 FFloat 0x4248 0xc149 = Ok 0x4248.
Proof. exf. Qed.

(** C82. Negation, absolute value and sign, on every pattern. *)
Theorem C82_negate eb fb v : fmt_ok eb fb -> 0 <= v < 2 ^ (eb + fb + 1) ->
  0 <= af_neg eb fb v < 2 ^ (eb + fb + 1) /\ same_ext (ieee_val eb fb (af_neg eb fb v)) (x_opp (ieee_val eb fb v)) /\
  af_neg eb fb (af_neg eb fb v) = v.
Proof. exact (fun FO => neg_val eb fb FO v). Qed.
Print Assumptions C82_negate.
Theorem C82_abs eb fb v : fmt_ok eb fb -> 0 <= v < 2 ^ (eb + fb + 1) ->
  0 <= af_abs eb fb v < 2 ^ (eb + fb) /\ same_ext (ieee_val eb fb (af_abs eb fb v)) (x_abs (ieee_val eb fb v)).
Proof. exact (fun FO => abs_val eb fb FO v). Qed.
Print Assumptions C82_abs.
Theorem C82_isnegative eb fb v : fmt_ok eb fb -> 0 <= v < 2 ^ (eb + fb + 1) ->
  (x_neg (ieee_val eb fb v) -> af_isnegative eb fb v = true) /\ (x_neg (x_opp (ieee_val eb fb v)) -> af_isnegative eb fb v = false) /\
  af_isnegative eb fb (af_neg eb fb v) = negb (af_isnegative eb fb v).
Proof. exact (af_isnegative_spec eb fb v). Qed.
Print Assumptions C82_isnegative.
Theorem C82_iszero_refuted : exists v q, 0 <= v < 2 ^ 16 /\ ieee_val 5 10 v = FinVal q /\ (q == 0)%Q /\ v = af_neg 5 10 0 /\ af_iszero v = false.
Proof. exact af_zero_sign. Qed.
Print Assumptions C82_iszero_refuted.
Example C82_ex : fmt_ok 5 10 /\ 0 <= 0xc248 < 2 ^ (5 + 10 + 1) /\ af_neg 5 10 0xc248 = 0x4248 /\ af_abs 5 10 0xc248 = 0x4248 /\ af_isnegative 5 10 0xc248 = true /\
  x_neg (ieee_val 5 10 0xc248).
Proof. exf. Qed.

(** C83. Construction from int: the integer truncated to the format. Full claim: every int. Missing: INT_MIN. *)
Theorem C83_from_int_partial eb fb i : fmt_ok eb fb -> - 2 ^ 31 < i < 2 ^ 31 ->
  (i = 0 -> af_of_int eb fb i = Ok 0) /\ (i <> 0 -> exists r, af_of_int eb fb i = Ok r /\ float_trunc eb fb (inject_Z i) r).
Proof. exact (af_of_int_spec eb fb i). Qed.
Print Assumptions C83_from_int_partial.
Theorem C83_from_int_refuted eb fb : af_of_int eb fb (- 2 ^ 31) = UB SignedOverflow.
Proof. exact (af_of_int_min eb fb). Qed.
Print Assumptions C83_from_int_refuted.
Example C83_ex : fmt_ok 5 10 /\ - 2 ^ 31 < -77 < 2 ^ 31 /\ -77 <> 0 /\ af_of_int 5 10 (-77) = Ok 54480 /\ af_of_int 5 10 (-100000) = Ok 0xfbff.
Proof. exf. Qed.

(** C84. Conversion to int: the integer part. Full claim: for every number below 2^31 in magnitude. Missing: numbers
    from 1 to 2 in magnitude, where the conversion shifts out of range. Beyond 2^31 the result is what is stated. *)
Theorem C84_to_int_partial eb fb v : fmt_ok eb fb -> 0 <= v < 2 ^ (eb + fb + 1) ->
  let o := af_to_int eb fb v in
  match ieee_val eb fb v with
  | FinVal x =>
    ((Qabs x < 1)%Q -> o = Ok 0) /\
    ((1 <= Qabs x)%Q -> (Qabs x < 2)%Q -> o = UB ShiftCount) /\
    ((2 <= Qabs x)%Q -> (Qabs x < pow2 31)%Q -> exists z, o = Ok z /\ truncated x z) /\
    ((pow2 31 <= x)%Q -> (x < pow2 32)%Q -> exists z, o = Ok z /\ z < 0 /\ truncated x (z + 2 ^ 32)) /\
    ((pow2 31 + 1 <= - x)%Q -> (- x < pow2 32)%Q -> exists z, o = Ok z /\ 0 < z /\ truncated x (z - 2 ^ 32)) /\
    ((pow2 31 <= - x)%Q -> (- x < pow2 31 + 1)%Q -> o = UB SignedOverflow) /\
    ((pow2 32 <= x)%Q -> o = Ok (2 ^ 31 - 1)) /\ ((pow2 32 <= - x)%Q -> o = Ok (- 2 ^ 31))
  | _ => o = Ok 0
  end.
Proof. exact (af_to_int_spec eb fb v). Qed.
Print Assumptions C84_to_int_partial.
Theorem C84_to_int_refuted eb fb : fmt_ok eb fb -> af_to_int eb fb (af_one eb fb) = UB ShiftCount.
Proof. exact (af_to_int_one eb fb). Qed.
Print Assumptions C84_to_int_refuted.
Example C84_ex : fmt_ok 5 10 /\ fmt_ok 8 23 /\ af_to_int 5 10 0x54d0 = Ok 77 /\ af_to_int 5 10 0x3c00 = UB ShiftCount /\ af_to_int 8 23 0x4f000000 = Ok (-2147483648) /\
  af_to_int 8 23 0xcf000000 = UB SignedOverflow /\ af_to_int 8 23 0x50000000 = Ok 2147483647.
Proof. exf. Qed.

(** C85. The named constants. *)
Theorem C85_constants eb fb : fmt_ok eb fb ->
  let finite b q := 0 <= b < 2 ^ (eb + fb + 1) /\ ieee_val eb fb b = FinVal q in
  (exists q, finite (af_one eb fb) q /\ (q == 1)%Q) /\ (exists q, finite (af_two eb fb) q /\ (q == 2)%Q) /\
  (exists q, finite (af_max eb fb) q /\ (forall b' q', finite b' q' -> (q' <= q)%Q)) /\
  (exists q, finite (af_lowest eb fb) q /\ (forall b' q', finite b' q' -> (q <= q')%Q)) /\
  (exists q, finite (af_min eb fb) q /\ (q == least_normal eb)%Q /\
     (forall b' q', finite b' q' -> (b' / 2 ^ fb) mod 2 ^ eb <> 0 -> (q <= Qabs q')%Q)) /\
  (0 <= af_pinf eb fb < 2 ^ (eb + fb + 1) /\ ieee_val eb fb (af_pinf eb fb) = InfVal false) /\
  (0 <= af_ninf eb fb < 2 ^ (eb + fb + 1) /\ ieee_val eb fb (af_ninf eb fb) = InfVal true) /\
  (0 <= af_nan eb fb < 2 ^ (eb + fb + 1) /\ ieee_val eb fb (af_nan eb fb) = NaNVal).
Proof. exact (Misc4.trait_constants eb fb true). Qed.
Print Assumptions C85_constants.
Example C85_ex : fmt_ok 5 2 /\ af_max 5 2 = 123 /\ af_one 5 2 = 60 /\ af_nan 5 2 = 126.
Proof. exf. Qed.
