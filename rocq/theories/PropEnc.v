(** The bit strings of posits. *)
From Coq Require Import ZArith QArith Qabs Lia Bool List.
From Verif Require Import Res Bits Cfg Unpacked Posit Spec SpecBits Configs Examples EncProof.
Import ListNotations.
Open Scope Z_scope.

(** C158. A positive number with regime [k], exponent [e] and [m] fraction bits [f] that fill the posit is the posit whose bits are 0, the regime, [e]
    and [f], and no other; and constructing it gives these bits. *)
Theorem C158_fields c v k e m f :
  valid_cfg c -> real c v ->
  0 <= e < 2 ^ ces c -> 0 <= m -> 0 <= f < 2 ^ m -> Z.of_nat (length (regime_bits k)) + 1 + ces c + m = cN c ->
  (value c v == pow2 (k * 2 ^ ces c + e) * (1 + inject_Z f / pow2 m))%Q <->
  all_bits c v = false :: regime_bits k ++ bits_of (Z.to_nat (ces c)) e ++ bits_of (Z.to_nat m) f.
Proof. exact (fun V => enc_fields c V v k e m f). Qed.
Print Assumptions C158_fields.
Theorem C158_construct c k e m f r :
  valid_cfg c -> exp_ok c ->
  0 <= e < 2 ^ ces c -> 0 <= m <= cF c -> 0 <= f < 2 ^ m -> Z.of_nat (length (regime_bits k)) + 1 + ces c + m = cN c ->
  pack_posit c (U Regular false (k * 2 ^ ces c + e) (f * 2 ^ (cF c - m))) = Ok r ->
  all_bits c r = false :: regime_bits k ++ bits_of (Z.to_nat (ces c)) e ++ bits_of (Z.to_nat m) f.
Proof. exact (fun V => enc_build c V k e m f r). Qed.
Print Assumptions C158_construct.
Example C158_ex_fields : valid_cfg p16 /\ exp_ok p16 /\ real p16 3649 /\
  0 <= 1 < 2 ^ ces p16 /\ 0 <= 10 <= cF p16 /\ 0 <= 577 < 2 ^ 10 /\ Z.of_nat (length (regime_bits (-3))) + 1 + ces p16 + 10 = cN p16 /\
  pack_posit p16 (U Regular false (-3 * 2 ^ ces p16 + 1) (577 * 2 ^ (cF p16 - 10))) = Ok 3649.
Proof. ex. Qed.

(** One is 01(0)+, two is 01(0){es}1(0)*, one half is 001(1){es}(0)*, and no other posit is one, two or one half. Missing: the README writes one as
    001(0)+, which is another number; onehalf() has these bits only if the holder has no spare bits; see below and C30. *)
Theorem C158_named_partial c :
  valid_cfg c ->
  (forall v, real c v -> (value c v == 1)%Q <-> all_bits c v = [false; true] ++ zeros (cN c - 2)) /\
  (forall v, real c v -> (value c v == 2)%Q <-> all_bits c v = [false; true] ++ zeros (ces c) ++ [true] ++ zeros (cN c - 3 - ces c)) /\
  (forall v, real c v -> (value c v == 1 # 2)%Q <-> all_bits c v = [false; false; true] ++ ones (ces c) ++ zeros (cN c - 3 - ces c)) /\
  all_bits c (p_one c) = [false; true] ++ zeros (cN c - 2) /\
  (csp c <> WithNanInf \/ cN c <> 3 -> all_bits c (p_two c) = [false; true] ++ zeros (ces c) ++ [true] ++ zeros (cN c - 3 - ces c)) /\
  (cH c = cN c -> all_bits c (p_onehalf c) = [false; false; true] ++ ones (ces c) ++ zeros (cN c - 3 - ces c)).
Proof. exact (fun V => conj (enc_one c V) (conj (enc_two c V) (conj (enc_half c V) (enc_named c V)))). Qed.
Print Assumptions C158_named_partial.
Example C158_ex_named : valid_cfg p12 /\ valid_cfg p16 /\ cH p16 = cN p16 /\ cN p12 <> 3 /\
  all_bits p12 (p_two p12) = [false; true; false; false; true; false; false; false; false; false; false; false] /\
  all_bits p16 (p_onehalf p16) = [false; false; true; true; false; false; false; false; false; false; false; false; false; false; false; false].
Proof. ex. Qed.

(** Constructing one and two from int gives these bits. *)
Theorem C158_from_int c r :
  valid_cfg c -> exp_ok c -> frac_fits c \/ 32 <= cF c ->
  (p_of_int c 1 = Ok r -> all_bits c r = [false; true] ++ zeros (cN c - 2)) /\
  (p_of_int c 2 = Ok r -> csp c <> WithNanInf \/ cN c <> 3 -> all_bits c r = [false; true] ++ zeros (ces c) ++ [true] ++ zeros (cN c - 3 - ces c)).
Proof. exact (fun V => enc_ints c V r). Qed.
Print Assumptions C158_from_int.

(** The bit after the sign of a positive posit, the inversion bit, tells whether it is at least one. *)
Theorem C158_inversion_bit c v :
  valid_cfg c -> real c v -> 0 < v -> (1 <= value c v)%Q <-> exists l, all_bits c v = false :: true :: l.
Proof. exact (fun V => second_bit c V v). Qed.
Print Assumptions C158_inversion_bit.
Example C158_ex_bit : valid_cfg p12 /\ exp_ok p12 /\ real p12 1500 /\ real p12 1000 /\ frac_fits p12 /\ p_of_int p12 2 = Ok 1152 /\
  all_bits p12 1500 = false :: true :: bits_of 10 1500 /\ (value p12 1000 < 1)%Q.
Proof. ex. Qed.

(** The pattern the README gives for one is not one. *)
Theorem C158_readme_one_refuted c v :
  valid_cfg c -> real c v -> all_bits c v = [false; false; true] ++ zeros (cN c - 3) -> (value c v == pow2 (- 2 ^ ces c))%Q.
Proof. exact (fun V => enc_readme c V v). Qed.
Print Assumptions C158_readme_one_refuted.
