(** Properties of the conversions: C33-C37, C53. *)
From Coq Require Import ZArith QArith Qabs List.
From Verif Require Import Res Traits Cfg Spec Unpacked Posit Configs Examples Final1 Conv1 Conv2 Conv3 Conv4 Conv5 Conv6 Conv7.
Import ListNotations.
Open Scope Z_scope.

(** C33. Float to posit: truncation with saturation of the exact value; zero, infinities and NaN map to
    their counterparts. [any_floattrait 8 23 true] and [any_floattrait 11 52 true] are the single and
    double traits (C52).  Full claim: for every FT.  With an FT narrower than the fraction of the
    float the claim is false of denormals and NaN payloads, which lose their low bits first (refuted below); what
    happens instead is stated exactly.  Formats declared
    without denormals read denormals as 0. *)
Theorem C33_from_float_wide_partial c eb fb den b :
  valid_cfg c -> exp_ok c -> fmt_ok eb fb -> et_holds c eb -> fb <= cF c -> 0 <= b < 2 ^ (eb + fb + 1) ->
  match ieee_val eb fb b with
  | FinVal q =>
      ((q == 0)%Q \/ den = false /\ (Qabs q < pow2 (2 - 2 ^ (eb - 1)))%Q ->
        p_of_float c (any_floattrait eb fb den) b = Ok 0) /\
      (~ (q == 0)%Q -> den = true \/ (pow2 (2 - 2 ^ (eb - 1)) <= Qabs q)%Q ->
        (room c q -> exists r, p_of_float c (any_floattrait eb fb den) b = Ok r /\ rounds_tz c q r) /\
        (~ room c q -> p_of_float c (any_floattrait eb fb den) b = UB ShiftCount))
  | InfVal s => p_of_float c (any_floattrait eb fb den) b = Ok (inf_of c s)
  | NaNVal => p_of_float c (any_floattrait eb fb den) b = Ok (exceptional c)
  end.
Proof. exact (of_float_wide c eb fb den b). Qed.
Print Assumptions C33_from_float_wide_partial.
Example C33_ex_wide : valid_cfg p16w /\ exp_ok p16w /\ fmt_ok 8 23 /\ et_holds p16w 8 /\ 23 <= cF p16w /\ roomy p16w /\
  p_of_float p16w (any_floattrait 8 23 true) 0x40490fdb = Ok 22817 /\
  p_of_float p16w (any_floattrait 8 23 true) 0xff800000 = Ok (-32768) /\
  p_of_float p16w (any_floattrait 8 23 true) 1 = Ok 1.
Proof. conj; try ex. constructor; ex. Qed.

Theorem C33_from_float_normal_partial c eb fb den b q :
  valid_cfg c -> exp_ok c -> fmt_ok eb fb -> et_holds c eb -> frac_fits c -> 0 <= b < 2 ^ (eb + fb + 1) ->
  ieee_val eb fb b = FinVal q -> (pow2 (2 - 2 ^ (eb - 1)) <= Qabs q)%Q ->
  (room c q -> exists r, p_of_float c (any_floattrait eb fb den) b = Ok r /\ rounds_tz c q r) /\
  (~ room c q -> p_of_float c (any_floattrait eb fb den) b = UB ShiftCount).
Proof. exact (of_float_normal c eb fb den b q). Qed.
Print Assumptions C33_from_float_normal_partial.
Example C33_ex_normal : valid_cfg p16 /\ exp_ok p16 /\ fmt_ok 11 52 /\ et_holds p16 11 /\ frac_fits p16 /\ roomy p16 /\
  p_of_float p16 (any_floattrait 11 52 true) 0x400921fb54442d18 = Ok 22817.
Proof. conj; try ex. constructor; ex. Qed.

(** An FT no wider than the fraction of the float, any bit pattern: the number is first cut towards zero to
    a multiple [m] of the place value [pow2 k] of the last bit FT keeps (which for subnormal numbers is that of the
    least normal number), and the outcome is that of the cut number [q']: 0 if nothing is left, an undefined
    shift if only the last of 32 or 64 bits is left, and the truncation of [q'] otherwise.  A NaN whose leading
    payload bits are 0 is read as an infinity of its sign. *)
Theorem C33_from_float_narrow_partial c eb fb den b :
  valid_cfg c -> exp_ok c -> fmt_ok eb fb -> et_holds c eb -> cF c <= fb -> 0 <= b < 2 ^ (eb + fb + 1) ->
  match ieee_val eb fb b with
  | FinVal q =>
      ((q == 0)%Q -> p_of_float c (any_floattrait eb fb den) b = Ok 0) /\
      forall e k m q', scale q e -> k = Z.max e (2 - 2 ^ (eb - 1)) - cF c ->
        (Qabs q' == inject_Z m * pow2 k)%Q -> (0 <= q * q')%Q -> (Qabs q' <= Qabs q)%Q -> (Qabs q < Qabs q' + pow2 k)%Q ->
        (m = 0 \/ den = false /\ e < 2 - 2 ^ (eb - 1) -> p_of_float c (any_floattrait eb fb den) b = Ok 0) /\
        (m <> 0 -> den = true \/ 2 - 2 ^ (eb - 1) <= e ->
          (m = 1 -> 32 <= cF c -> p_of_float c (any_floattrait eb fb den) b = UB ShiftCount) /\
          (m <> 1 \/ cF c < 32 ->
            (room c q -> exists r, p_of_float c (any_floattrait eb fb den) b = Ok r /\ rounds_tz c q' r) /\
            (~ room c q -> p_of_float c (any_floattrait eb fb den) b = UB ShiftCount)))
  | InfVal s => p_of_float c (any_floattrait eb fb den) b = Ok (inf_of c s)
  | NaNVal => p_of_float c (any_floattrait eb fb den) b =
      Ok (if b mod 2 ^ fb / 2 ^ (fb - cF c) =? 0 then inf_of c (negb (b / 2 ^ (eb + fb) =? 0)) else exceptional c)
  end.
Proof. exact (of_float_narrow c eb fb den b). Qed.
Print Assumptions C33_from_float_narrow_partial.
(** The double of fraction 3 * 2^20 + 5 below the normal range: 32 bits keep the 3. *)
Example C33_ex_narrow : valid_cfg p32_64 /\ exp_ok p32_64 /\ fmt_ok 11 52 /\ et_holds p32_64 11 /\ cF p32_64 <= 52 /\ roomy p32_64 /\
  (let q := (inject_Z 3145733 * pow2 (-1074))%Q in ieee_val 11 52 3145733 = FinVal (1 * (inject_Z 3145733 * pow2 (1 - (2 ^ (11 - 1) - 1) - 52))) /\ scale q (-1053) /\
    (Qabs (inject_Z 3 * pow2 (-1054)) == inject_Z 3 * pow2 (-1054))%Q /\ (0 <= q * (inject_Z 3 * pow2 (-1054)))%Q /\
    (inject_Z 3 * pow2 (-1054) <= Qabs q)%Q /\ (Qabs q < inject_Z 3 * pow2 (-1054) + pow2 (-1054))%Q) /\
  -1054 = Z.max (-1053) (2 - 2 ^ (11 - 1)) - cF p32_64 /\ p_of_float p32_64 (any_floattrait 11 52 true) 3145733 = Ok 1 /\
  p_of_float p32_64 (any_floattrait 11 52 true) (2 ^ 20 + 5) = UB ShiftCount /\
  p_of_float p32_64 (any_floattrait 11 52 true) 5 = Ok 0.
Proof. cbv zeta. conj; try ex; try reflexivity. constructor; ex. Qed.

(** With FT of 16 bits the smallest double becomes 0 instead of the smallest posit, and a NaN whose
    payload sits in the low bits becomes an infinity; with FT of 32 bits the decoding of some doubles
    shifts out of range. *)
Theorem C33_narrow_fraction_refuted :
  (ieee_val 11 52 1 = FinVal (1 * (inject_Z 1 * pow2 (1 - (2 ^ (11 - 1) - 1) - 52))) /\ p_of_float p16 double_trait 1 = Ok 0) /\
  (ieee_val 11 52 0x7ff0000000000001 = NaNVal /\ p_of_float p16ni double_trait 0x7ff0000000000001 = Ok (inf_of p16ni false)) /\
  p_of_float p32 double_trait (2 ^ 20) = UB ShiftCount.
Proof. exact narrow_fraction. Qed.
Print Assumptions C33_narrow_fraction_refuted.
(** With an 8 bit exponent type the double 2.0 becomes 0 and the float infinity the smallest posit;
    the posit 2 becomes the float 0. *)
Theorem C33_narrow_exponent_refuted :
  valid_cfg (Cfg 8 6 0 8 WithNan) /\
  p_of_float (Cfg 8 6 0 8 WithNan) double_trait 0x4000000000000000 = Ok 0 /\
  p_of_float (Cfg 8 6 0 8 WithNan) single_trait 0x7f800000 = Ok 1 /\
  p_to_float (Cfg 8 6 0 8 WithNan) single_trait 24 = Ok 0 /\ (value (Cfg 8 6 0 8 WithNan) 24 == 2)%Q.
Proof. exact narrow_exponent. Qed.
Print Assumptions C33_narrow_exponent_refuted.

(** C34. Posit to float and back. A posit whose value is a normal number of the float format converts
    to exactly that number, and back to itself. *)
Theorem C34_exact c eb fb den v q :
  valid_cfg c -> fmt_ok eb fb -> pt_holds c eb -> frac_fits c -> real c v ->
  (exists b0, 0 <= b0 < 2 ^ (eb + fb + 1) /\ ieee_val eb fb b0 = FinVal q) -> (q == value c v)%Q ->
  (pow2 (2 - 2 ^ (eb - 1)) <= Qabs (value c v))%Q ->
  exists b r, p_to_float c (any_floattrait eb fb den) v = Ok b /\ 0 <= b < 2 ^ (eb + fb + 1) /\
    ieee_val eb fb b = FinVal r /\ (r == value c v)%Q.
Proof. exact (to_float_exact c eb fb den v q). Qed.
Print Assumptions C34_exact.
Theorem C34_round_trip c eb fb den v q :
  valid_cfg c -> exp_ok c -> fmt_ok eb fb -> et_holds c eb -> frac_fits c -> real c v ->
  (exists b0, 0 <= b0 < 2 ^ (eb + fb + 1) /\ ieee_val eb fb b0 = FinVal q) -> (q == value c v)%Q ->
  (pow2 (2 - 2 ^ (eb - 1)) <= Qabs (value c v))%Q -> room c (value c v) ->
  exists b, p_to_float c (any_floattrait eb fb den) v = Ok b /\ p_of_float c (any_floattrait eb fb den) b = Ok v.
Proof. exact (round_trip_gen c eb fb den v q). Qed.
Print Assumptions C34_round_trip.
(** When the format has the fraction bits and the exponent range of the posit format this covers every
    posit; the special values always come back. *)
Theorem C34_all_exact c eb fb den v :
  valid_cfg c -> fmt_ok eb fb -> pt_holds c eb -> frac_fits c -> float_covers c eb fb -> real c v ->
  exists b r, p_to_float c (any_floattrait eb fb den) v = Ok b /\ 0 <= b < 2 ^ (eb + fb + 1) /\
    ieee_val eb fb b = FinVal r /\ (r == value c v)%Q.
Proof. exact (to_float_covered c eb fb den v). Qed.
Print Assumptions C34_all_exact.
Theorem C34_all_round_trip c eb fb den v :
  valid_cfg c -> exp_ok c -> fmt_ok eb fb -> et_holds c eb -> frac_fits c -> float_covers c eb fb ->
  real c v -> room c (value c v) ->
  exists b, p_to_float c (any_floattrait eb fb den) v = Ok b /\ p_of_float c (any_floattrait eb fb den) b = Ok v.
Proof. exact (float_round_trip c eb fb den v). Qed.
Print Assumptions C34_all_round_trip.
Theorem C34_special_round_trip c eb fb den v :
  valid_cfg c -> fmt_ok eb fb -> et_holds c eb -> is_nan c v \/ is_inf c v ->
  exists b, p_to_float c (any_floattrait eb fb den) v = Ok b /\ p_of_float c (any_floattrait eb fb den) b = Ok v.
Proof. exact (special_round_trip c eb fb den v). Qed.
Print Assumptions C34_special_round_trip.
Theorem C34_specials c eb fb den v :
  valid_cfg c -> fmt_ok eb fb ->
  (is_nan c v -> exists b, p_to_float c (any_floattrait eb fb den) v = Ok b /\
     0 <= b < 2 ^ (eb + fb + 1) /\ ieee_val eb fb b = NaNVal) /\
  (is_inf c v -> exists b, p_to_float c (any_floattrait eb fb den) v = Ok b /\
     0 <= b < 2 ^ (eb + fb + 1) /\ ieee_val eb fb b = InfVal (v <? 0)).
Proof. exact (to_float_special c eb fb den v). Qed.
Print Assumptions C34_specials.
Example C34_ex : valid_cfg p16 /\ exp_ok p16 /\ fmt_ok 8 23 /\ et_holds p16 8 /\ pt_holds p16 8 /\ frac_fits p16 /\
  float_covers p16 8 23 /\ roomy p16 /\ real p16 (-22817) /\
  p_to_float p16 (any_floattrait 8 23 true) (-22817) = Ok 0xc0490800 /\
  p_of_float p16 (any_floattrait 8 23 true) 0xc0490800 = Ok (-22817).
Proof. conj; try ex. constructor; ex. Qed.
Example C34_ex_narrow : float_covers p32 11 52 /\ ~ float_covers p32 8 23 /\ et_holds p32 8 /\
  0 <= 0x40490fdb < 2 ^ (8 + 23 + 1) /\
  ieee_val 8 23 0x40490fdb = FinVal (1 * (inject_Z (2 ^ 23 + 0x490fdb) * pow2 (128 - 127 - 23))) /\
  (1 * (inject_Z (2 ^ 23 + 0x490fdb) * pow2 (128 - 127 - 23)) == value p32 1284570544)%Q.
Proof. ex. Qed.

(** C35. Packing any unpacked number to a float format of [eb] exponent and [fb] fraction bits: the
    float of largest magnitude not exceeding it (which is the largest finite float above the range);
    0 below the normal range of a format with denormals; for the 8 and 16 bit formats without, the
    truncated denormal.  Full claim: for every exponent.  Missing: exponents whose sum with the bias
    leaves the exponent type (refuted below).  All formats without denormals: C35_pack_denormal. *)
Theorem C35_pack_float_partial F E eb fb den n e f x :
  is_width F -> is_width E -> fmt_ok eb fb ->
  let L := Z.max E (least_bits eb) in
  eb < L -> 0 <= f < 2 ^ F -> - 2 ^ (L - 1) <= e -> e + (2 ^ (eb - 1) - 1) < 2 ^ (L - 1) ->
  (x == uvalue F n e f)%Q ->
  let o := u_pack_xfloati F E (any_floattrait eb fb den) (U Regular n e f) in
  let tiny := pow2 (2 - 2 ^ (eb - 1)) in
  ((tiny <= Qabs x)%Q -> exists b, o = Ok b /\ float_trunc eb fb x b) /\
  ((Qabs x < tiny)%Q -> den = true -> o = Ok 0) /\
  ((Qabs x < tiny)%Q -> den = false -> eb + fb + 1 < 32 -> fb < F ->
     ((pow2 (- 2 ^ (eb - 1) - 30) <= Qabs x)%Q -> exists b, o = Ok b /\ float_trunc eb fb x b) /\
     ((Qabs x < pow2 (- 2 ^ (eb - 1) - 30))%Q -> o = UB ShiftCount)).
Proof. exact (pack_float_trunc F E eb fb den n e f x). Qed.
Print Assumptions C35_pack_float_partial.
Example C35_ex : fmt_ok 8 7 /\ 8 < Z.max 16 (least_bits 8) /\
  u_pack_xfloati 16 16 bfloat16_trait (U Regular true (-128) 40000) = Ok (32768 + 51) /\
  u_pack_xfloati 16 16 half_traitalt (U Regular true (-128) 40000) = Ok 0 /\
  u_pack_xfloati 16 16 half_traitalt (U Regular true 200 40000) = Ok 0xff7f /\
  u_pack_xfloati 16 16 bfloat16_trait (U Regular true (-200) 40000) = UB ShiftCount.
Proof. conj; try ex. constructor; ex. Qed.
(** A number of exponent 32767 in a 16 bit exponent type becomes 0 instead of the largest float. *)
Theorem C35_pack_float_refuted : exists e f, 0 <= f < 2 ^ 16 /\ - 2 ^ 15 <= e < 2 ^ 15 /\
  (pow2 127 <= uvalue 16 false e f)%Q /\ u_pack_xfloati 16 16 single_trait (U Regular false e f) = Ok 0.
Proof. exact pack_float_wraps. Qed.
Print Assumptions C35_pack_float_refuted.
(** The same on posits: every instantiation, every finite pattern. *)
Theorem C35_to_float c eb fb den v :
  valid_cfg c -> fmt_ok eb fb -> pt_holds c eb -> frac_fits c -> real c v ->
  let x := value c v in
  let o := p_to_float c (any_floattrait eb fb den) v in
  let tiny := pow2 (2 - 2 ^ (eb - 1)) in
  ((x == 0)%Q -> o = Ok 0) /\
  ((tiny <= Qabs x)%Q -> exists b, o = Ok b /\ float_trunc eb fb x b) /\
  ((Qabs x < tiny)%Q -> den = true -> o = Ok 0) /\
  (~ (x == 0)%Q -> (Qabs x < tiny)%Q -> den = false -> eb + fb + 1 < 32 -> fb < cF c ->
     ((pow2 (- 2 ^ (eb - 1) - 30) <= Qabs x)%Q -> exists b, o = Ok b /\ float_trunc eb fb x b) /\
     ((Qabs x < pow2 (- 2 ^ (eb - 1) - 30))%Q -> o = UB ShiftCount)).
Proof. exact (to_float c eb fb den v). Qed.
Print Assumptions C35_to_float.
Example C35_ex_posit : valid_cfg p32 /\ fmt_ok 8 23 /\ pt_holds p32 8 /\ frac_fits p32 /\ real p32 1284570551 /\
  p_to_float p32 (any_floattrait 8 23 true) 1284570551 = Ok 0x40490fdb.
Proof. conj; try ex. constructor; ex. Qed.

(** Below the normal range of any format declared without denormals, every shift count. [x'] is [x], less the
    last bit of the fraction if the format keeps more fraction bits than FT has.  Numbers more than 32 (for 64 bit
    formats 64) places below are an undefined shift; a negative number below the least denormal becomes the least
    negative denormal in the formats of 32 and 64 bits; all others are truncated. *)
Theorem C35_pack_denormal F E eb fb n e f x x' : is_width F -> is_width E -> fmt_ok eb fb ->
  let L := Z.max E (least_bits eb) in
  eb < L -> 0 <= f < 2 ^ F -> - 2 ^ (L - 1) <= e ->
  (x == uvalue F n e f)%Q -> (x' == uvalue F n e (if fb <=? F then f else f - f mod 2))%Q ->
  (Qabs x < pow2 (2 - 2 ^ (eb - 1)))%Q ->
  let o := u_pack_xfloati F E (any_floattrait eb fb false) (U Regular n e f) in
  let ulp := pow2 (2 - 2 ^ (eb - 1) - fb) in
  ((Qabs x < pow2 (2 - 2 ^ (eb - 1) - Z.max 32 (eb + fb + 1)))%Q -> o = UB ShiftCount) /\
  ((pow2 (2 - 2 ^ (eb - 1) - Z.max 32 (eb + fb + 1)) <= Qabs x)%Q ->
    (32 <= eb + fb + 1 -> (x < 0)%Q -> (Qabs x < ulp)%Q -> o = Ok (2 ^ (eb + fb) + 1)) /\
    (eb + fb + 1 < 32 \/ (0 < x)%Q \/ (ulp <= Qabs x)%Q -> exists b, o = Ok b /\ float_trunc eb fb x' b)).
Proof. exact (pack_denormal F E eb fb n e f x x'). Qed.
Print Assumptions C35_pack_denormal.
Example C35_ex_denormal : is_width 32 /\ is_width 16 /\ fmt_ok 8 23 /\ 8 < Z.max 16 (least_bits 8) /\
  (Qabs (uvalue 32 true (-130) (2 ^ 31)) < pow2 (2 - 2 ^ (8 - 1)))%Q /\
  u_pack_xfloati 32 16 (any_floattrait 8 23 false) (U Regular true (-130) (2 ^ 31)) = Ok (2 ^ 31 + 3 * 2 ^ 18) /\
  u_pack_xfloati 32 16 (any_floattrait 8 23 false) (U Regular true (-155) (2 ^ 31)) = Ok (2 ^ 31 + 1) /\
  u_pack_xfloati 32 16 (any_floattrait 8 23 false) (U Regular false (-155) (2 ^ 31)) = Ok 0 /\
  u_pack_xfloati 32 16 (any_floattrait 8 23 false) (U Regular false (-170) (2 ^ 31)) = UB ShiftCount /\
  u_pack_xfloati 16 16 (any_floattrait 8 23 false) (U Regular false (-127) 1) = Ok (2 ^ 22).
Proof. conj; try ex. constructor; ex. Qed.
Theorem C35_to_float_denormal c eb fb v : valid_cfg c -> fmt_ok eb fb -> pt_holds c eb -> frac_fits c ->
  fb <= cF c \/ cN c - 3 - ces c < cF c -> real c v ->
  let x := value c v in ~ (x == 0)%Q -> (Qabs x < pow2 (2 - 2 ^ (eb - 1)))%Q ->
  let o := p_to_float c (any_floattrait eb fb false) v in
  let ulp := pow2 (2 - 2 ^ (eb - 1) - fb) in
  ((Qabs x < pow2 (2 - 2 ^ (eb - 1) - Z.max 32 (eb + fb + 1)))%Q -> o = UB ShiftCount) /\
  ((pow2 (2 - 2 ^ (eb - 1) - Z.max 32 (eb + fb + 1)) <= Qabs x)%Q ->
    (32 <= eb + fb + 1 -> (x < 0)%Q -> (Qabs x < ulp)%Q -> o = Ok (2 ^ (eb + fb) + 1)) /\
    (eb + fb + 1 < 32 \/ (0 < x)%Q \/ (ulp <= Qabs x)%Q -> exists b, o = Ok b /\ float_trunc eb fb x b)).
Proof. exact (to_float_denormal c eb fb v). Qed.
Print Assumptions C35_to_float_denormal.
(** A 32 bit posit with 4 exponent bits reaches below the normal range of the 32 bit floats. *)
Example C35_ex_posit_denormal : let c := Cfg 32 32 4 32 WithNan in
  valid_cfg c /\ fmt_ok 8 23 /\ pt_holds c 8 /\ frac_fits c /\ cN c - 3 - ces c < cF c /\ real c (2 ^ 21 + 12345) /\
  ~ (value c (2 ^ 21 + 12345) == 0)%Q /\ (Qabs (value c (2 ^ 21 + 12345)) < pow2 (2 - 2 ^ (8 - 1)))%Q /\
  p_to_float c (any_floattrait 8 23 false) (2 ^ 21 + 12345) = Ok 35.
Proof. cbv zeta. split; [cfg_tac|]. split; [constructor; ex|]. conj; try ex. Qed.

(** C36. Int to posit; INT_MIN overflows. *)
Theorem C36_from_int c i :
  valid_cfg c -> exp_ok c -> frac_fits c \/ 32 <= cF c -> - 2 ^ 31 < i < 2 ^ 31 ->
  (room c (inject_Z i) -> exists r, p_of_int c i = Ok r /\ rounds_tz c (inject_Z i) r) /\
  (~ room c (inject_Z i) -> p_of_int c i = UB ShiftCount).
Proof. exact (of_int c i). Qed.
Print Assumptions C36_from_int.
Theorem C36_from_int_min c : p_of_int c (- 2 ^ 31) = UB SignedOverflow.
Proof. exact (of_int_min c). Qed.
Print Assumptions C36_from_int_min.
Example C36_ex : valid_cfg p16 /\ exp_ok p16 /\ frac_fits p16 /\ roomy p16 /\ p_of_int p16 (-1000) = Ok (-32244).
Proof. ex. Qed.

(** C37. Posit to int.  Full claim: the integer part when |x| < 2^31, saturation above, 0 for the
    special values.  Proved: everything but 1 <= |x| < 2, where the code shifts out of range, and
    2^31 <= |x| < 2^32, where the sign is wrong (or the negation overflows) instead of saturating. *)
Theorem C37_to_int_partial c v :
  valid_cfg c -> frac_fits c -> real c v ->
  let x := value c v in
  ((Qabs x < 1)%Q -> p_to_int c v = Ok 0) /\
  ((1 <= Qabs x)%Q -> (Qabs x < 2)%Q -> p_to_int c v = UB ShiftCount) /\
  ((2 <= Qabs x)%Q -> (Qabs x < pow2 31)%Q -> exists z, p_to_int c v = Ok z /\ truncated x z) /\
  ((pow2 31 <= x)%Q -> (x < pow2 32)%Q -> exists z, p_to_int c v = Ok z /\ z < 0 /\ truncated x (z + 2 ^ 32)) /\
  ((pow2 31 + 1 <= - x)%Q -> (- x < pow2 32)%Q -> exists z, p_to_int c v = Ok z /\ 0 < z /\ truncated x (z - 2 ^ 32)) /\
  ((pow2 31 <= - x)%Q -> (- x < pow2 31 + 1)%Q -> p_to_int c v = UB SignedOverflow) /\
  ((pow2 32 <= Qabs x)%Q -> p_to_int c v = Ok (if v <? 0 then - 2 ^ 31 else 2 ^ 31 - 1)).
Proof. exact (to_int c v). Qed.
Print Assumptions C37_to_int_partial.
Theorem C37_to_int_special c v : valid_cfg c -> is_nan c v \/ is_inf c v -> p_to_int c v = Ok 0.
Proof. exact (to_int_special c v). Qed.
Print Assumptions C37_to_int_special.
Theorem C37_to_int_refuted :
  (real p16 16384 /\ (value p16 16384 == 1)%Q /\ p_to_int p16 16384 = UB ShiftCount) /\
  (exists v z, real p32 v /\ (value p32 v == 3221225472)%Q /\ p_to_int p32 v = Ok z /\ z < 0).
Proof. exact to_int_wrong. Qed.
Print Assumptions C37_to_int_refuted.
Example C37_ex : valid_cfg p16 /\ frac_fits p16 /\ real p16 (-32244) /\ p_to_int p16 (-32244) = Ok (-1000).
Proof. ex. Qed.

(** C53. Float to Unpacked is exact when FT has the fraction bits, denormals included; packing a normal
    number back returns the same bits. *)
Theorem C53_unpack_float eb fb F E den b :
  fmt_ok eb fb -> is_width F -> is_width E -> eb < E -> fb <= F -> 0 <= b < 2 ^ (eb + fb + 1) ->
  match ieee_val eb fb b with
  | InfVal s => exists e f, u_unpack_xfloati F E (any_floattrait eb fb den) b = Ok (U Infinity s e f)
  | NaNVal => exists n e f, u_unpack_xfloati F E (any_floattrait eb fb den) b = Ok (U NaN n e f)
  | FinVal q =>
     ((q == 0)%Q \/ (den = false /\ (Qabs q < pow2 (1 - (2 ^ (eb - 1) - 1)))%Q)) /\
       (exists e f, u_unpack_xfloati F E (any_floattrait eb fb den) b = Ok (U Zero false e f)) \/
     ~ (q == 0)%Q /\ (den = true \/ (pow2 (1 - (2 ^ (eb - 1) - 1)) <= Qabs q)%Q) /\
       (exists n e f, u_unpack_xfloati F E (any_floattrait eb fb den) b = Ok (U Regular n e f) /\
         0 <= f < 2 ^ F /\ (uvalue F n e f == q)%Q)
  end.
Proof. exact (fun FO WF WE EE => unpack_wide eb fb F E den FO WF WE EE b). Qed.
Print Assumptions C53_unpack_float.
Theorem C53_float_round_trip F E eb fb den b q :
  is_width F -> is_width E -> fmt_ok eb fb -> eb < E -> fb <= F -> 0 <= b < 2 ^ (eb + fb + 1) ->
  ieee_val eb fb b = FinVal q -> (pow2 (2 - 2 ^ (eb - 1)) <= Qabs q)%Q ->
  exists u, u_unpack_xfloati F E (any_floattrait eb fb den) b = Ok u /\ u_pack_xfloati F E (any_floattrait eb fb den) u = Ok b.
Proof. exact (unpack_pack_float F E eb fb den b q). Qed.
Print Assumptions C53_float_round_trip.
Example C53_ex : fmt_ok 5 2 /\ 5 < 8 /\ 2 <= 8 /\ ieee_val 5 2 0x81 = FinVal (-1 * (inject_Z 1 * pow2 (-16))) /\
  u_unpack_xfloati 8 8 microfloat_trait 0x81 = Ok (U Regular true (-16) 0) /\
  u_unpack_xfloati 8 8 microfloat_trait 0xa7 = Ok (U Regular true (-6) 192) /\
  u_pack_xfloati 8 8 microfloat_trait (U Regular true (-6) 192) = Ok 0xa7.
Proof. conj; try ex. constructor; ex. Qed.
