(** Properties of decoding, classification, comparison and packing: C01-C11, C17, C61, C62. *)
From Coq Require Import ZArith QArith Qabs.
From Verif Require Import Res Cfg Spec Unpacked Posit Configs Examples Specials Final1.
Open Scope Z_scope.

(** C01. Unpacking any finite nonzero posit is defined and yields exactly the value that the bit
    string denotes. *)
Theorem C01_unpack_value c v :
  valid_cfg c -> frac_fits c -> real c v -> v <> 0 ->
  exists neg e f, unpack c v = Ok (U Regular neg e f) /\ 0 <= f < 2 ^ cF c /\
    (value c v == uvalue (cF c) neg e f)%Q.
Proof. exact (decode_value c v). Qed.
Print Assumptions C01_unpack_value.
Example C01_ex : valid_cfg p16 /\ frac_fits p16 /\ real p16 (-20481) /\ -20481 <> 0 /\
  unpack p16 (-20481) = Ok (U Regular true 1 16) /\ (value p16 (-20481) == -(4097 # 2048))%Q.
Proof. ex. Qed.

(** C61. When FT is too narrow for the fraction, unpacking drops low fraction bits: the result is
    the truncation of the value to bits(FT) fraction bits, never more. *)
Theorem C61_unpack_truncates c v :
  valid_cfg c -> real c v -> v <> 0 ->
  exists e f, unpack c v = Ok (U Regular (v <? 0) e f) /\ 0 <= f < 2 ^ cF c /\
    (Qabs (uvalue (cF c) (v <? 0) e f) <= Qabs (value c v))%Q /\
    (Qabs (value c v) < Qabs (uvalue (cF c) (v <? 0) e (f + 1)))%Q.
Proof. exact (decode_trunc c v). Qed.
Print Assumptions C61_unpack_truncates.
Definition narrow : cfg := Cfg 16 16 1 8 WithNan.
Lemma valid_narrow : valid_cfg narrow. Proof. cfg_tac. Qed.
Example C61_ex : real narrow 16387 /\ unpack narrow 16387 = Ok (U Regular false 0 0) /\
  ~ (value narrow 16387 == uvalue 8 false 0 0)%Q.
Proof. ex. Qed.

(** C02. Every pattern belongs to exactly one class, and packing a special class gives back its
    pattern. *)
Theorem C02_classification c v :
  valid_cfg c -> pattern c v ->
  (v = 0 /\ unpack c v = Ok (U Zero false 0 0)) \/
  (is_nan c v /\ unpack c v = Ok (U NaN false 0 0)) \/
  (is_inf c v /\ unpack c v = Ok (U Infinity (v <? 0) 0 0)) \/
  (real c v /\ v <> 0 /\ exists e f, unpack c v = Ok (U Regular (v <? 0) e f)).
Proof. exact (classify c v). Qed.
Print Assumptions C02_classification.
Theorem C02_classes_disjoint c v :
  valid_cfg c ->
  ~ (is_nan c v /\ is_inf c v) /\ ~ (is_nan c v /\ real c v) /\ ~ (is_inf c v /\ real c v) /\
  ~ (is_pinf c v /\ is_ninf c v).
Proof. exact (kinds_disjoint c v). Qed.
Print Assumptions C02_classes_disjoint.
Theorem C02_pack_special c neg e f :
  valid_cfg c ->
  pack_posit c (U Zero neg e f) = Ok 0 /\
  pack_posit c (U NaN neg e f) = Ok (exceptional c) /\
  pack_posit c (U Infinity neg e f) = Ok (inf_of c neg).
Proof. exact (pack_specials c neg e f). Qed.
Print Assumptions C02_pack_special.
Example C02_ex : valid_cfg p16ni /\ pattern p16ni (-32767) /\ is_ninf p16ni (-32767) /\
  unpack p16ni (-32767) = Ok (U Infinity true 0 0) /\ inf_of p16ni true = -32767.
Proof. ex. Qed.

(** C03. Packing what was unpacked gives back the pattern. *)
Theorem C03_pack_unpack c v :
  valid_cfg c -> exp_ok c -> frac_fits c -> pattern c v ->
  exists u, unpack c v = Ok u /\ (forall r, pack_posit c u = Ok r -> r = v) /\
    (~ real c v \/ room c (value c v) -> pack_posit c u = Ok v).
Proof. exact (roundtrip c v). Qed.
Print Assumptions C03_pack_unpack.
Example C03_ex : valid_cfg p32 /\ exp_ok p32 /\ frac_fits p32 /\ pattern p32 1500000000 /\
  room p32 (value p32 1500000000).
Proof. conj; [ex|ex|ex|ex|apply (room_by _ _ 3); ex]. Qed.

(** C04. The six comparison operators compare the denoted numbers. *)
Theorem C04_compare c a b :
  valid_cfg c -> real c a -> real c b ->
  (p_lt c a b = true <-> (value c a < value c b)%Q) /\
  (p_le c a b = true <-> (value c a <= value c b)%Q) /\
  (p_gt c a b = true <-> (value c a > value c b)%Q) /\
  (p_ge c a b = true <-> (value c a >= value c b)%Q) /\
  (p_eq c a b = true <-> (value c a == value c b)%Q) /\
  (p_ne c a b = true <-> ~ (value c a == value c b)%Q).
Proof. exact (compare_real c a b). Qed.
Print Assumptions C04_compare.
Example C04_ex : valid_cfg p32 /\ real p32 (-5) /\ real p32 7 /\ p_lt p32 (-5) 7 = true.
Proof. ex. Qed.

(** C05. NaN is unordered; the infinities of WithNanInf lie outside all numbers. *)
Theorem C05_nan_unordered c a b :
  valid_cfg c -> is_nan c a \/ is_nan c b ->
  p_lt c a b = false /\ p_le c a b = false /\ p_gt c a b = false /\ p_ge c a b = false /\
  p_eq c a b = false /\ p_ne c a b = true.
Proof. exact (compare_nan c a b). Qed.
Print Assumptions C05_nan_unordered.
Theorem C05_infinities_ordered c x i j :
  valid_cfg c -> real c x -> is_pinf c i -> is_ninf c j ->
  p_lt c x i = true /\ p_gt c i x = true /\ p_lt c j x = true /\ p_gt c x j = true /\
  p_lt c j i = true /\ p_eq c x i = false /\ p_eq c x j = false.
Proof. exact (compare_inf c x i j). Qed.
Print Assumptions C05_infinities_ordered.
Example C05_ex : valid_cfg p16ni /\ is_nan p16ni (-32768) /\ real p16ni 32766 /\ is_pinf p16ni 32767 /\
  is_ninf p16ni (-32767).
Proof. ex. Qed.

(** C06. Distinct finite patterns denote distinct numbers. *)
Theorem C06_injective c a b :
  valid_cfg c -> real c a -> real c b -> (value c a == value c b)%Q -> a = b.
Proof. exact (value_injective c a b). Qed.
Print Assumptions C06_injective.
Example C06_ex : valid_cfg p16 /\ real p16 (-32767) /\ real p16 32767.
Proof. ex. Qed.

(** C07. Negation. *)
Theorem C07_negate c v :
  valid_cfg c -> real c v ->
  exists r, p_neg c v = Ok r /\ real c r /\ (value c r == - value c v)%Q /\ p_neg c r = Ok v.
Proof. exact (neg_real c v). Qed.
Print Assumptions C07_negate.
Example C07_ex : valid_cfg p32 /\ real p32 (-2147483647) /\ p_neg p32 (-2147483647) = Ok 2147483647.
Proof. ex. Qed.

(** C08. Absolute value. *)
Theorem C08_abs c v :
  valid_cfg c -> real c v ->
  exists r, p_abs c v = Ok r /\ real c r /\ (value c r == Qabs (value c v))%Q.
Proof. exact (abs_real c v). Qed.
Print Assumptions C08_abs.
Example C08_ex : valid_cfg p32 /\ real p32 (-2147483647) /\ p_abs p32 (-2147483647) = Ok 2147483647.
Proof. ex. Qed.

(** C09. Full statement: -x and abs(x) of NaN (infinity) is NaN (an infinity), for every instantiation.
    It holds for the signed infinities, and for the pattern 10..0 exactly when T has totalbits bits and
    at most 16 of them. *)
Theorem C09_special_sign_partial c :
  valid_cfg c ->
  (csp c = WithNanInf ->
    p_neg c (inf_of c false) = Ok (inf_of c true) /\ p_neg c (inf_of c true) = Ok (inf_of c false) /\
    p_abs c (inf_of c true) = Ok (inf_of c false) /\ p_abs c (inf_of c false) = Ok (inf_of c false)) /\
  (cH c = cN c -> cH c < 32 ->
    p_neg c (exceptional c) = Ok (exceptional c) /\ p_abs c (exceptional c) = Ok (exceptional c)) /\
  (cH c = cN c -> 32 <= cH c ->
    p_neg c (exceptional c) = UB SignedOverflow /\ p_abs c (exceptional c) = UB SignedOverflow) /\
  (cN c < cH c ->
    p_neg c (exceptional c) = Ok (2 ^ (cN c - 1)) /\ p_abs c (exceptional c) = Ok (2 ^ (cN c - 1)) /\
    ~ pattern c (2 ^ (cN c - 1))).
Proof. exact (special_sign c). Qed.
Print Assumptions C09_special_sign_partial.
Theorem C09_special_sign_refuted :
  exists c, valid_cfg c /\ is_nan c (exceptional c) /\
    ~ (exists r, p_neg c (exceptional c) = Ok r /\ is_nan c r) /\
    ~ (exists r, p_abs c (exceptional c) = Ok r /\ is_nan c r).
Proof. exact special_sign_refuted. Qed.
Print Assumptions C09_special_sign_refuted.
Example C09_ex : valid_cfg p16_32 /\ cN p16_32 < cH p16_32 /\ p_neg p16_32 (exceptional p16_32) = Ok 32768.
Proof. ex. Qed.

(** C10. Packing truncates toward zero and saturates at both ends. *)
Theorem C10_pack_rounds c neg e f r :
  valid_cfg c -> exp_ok c -> 0 <= f < 2 ^ cF c ->
  pack_posit c (U Regular neg e f) = Ok r -> rounds_tz c (uvalue (cF c) neg e f) r.
Proof. exact (pack_value c neg e f r). Qed.
Print Assumptions C10_pack_rounds.
Example C10_ex : valid_cfg p16 /\ exp_ok p16 /\ 0 <= 65535 < 2 ^ cF p16 /\
  pack_posit p16 (U Regular true (-100) 65535) = Ok (-1) /\ pack_posit p16 (U Regular false 1 65535) = Ok 24575.
Proof. ex. Qed.

(** C11. Rounding is monotone and leaves posits unchanged. *)
Theorem C11_pack_monotone c n1 e1 f1 n2 e2 f2 r1 r2 :
  valid_cfg c -> exp_ok c -> 0 <= f1 < 2 ^ cF c -> 0 <= f2 < 2 ^ cF c ->
  (uvalue (cF c) n1 e1 f1 <= uvalue (cF c) n2 e2 f2)%Q ->
  pack_posit c (U Regular n1 e1 f1) = Ok r1 -> pack_posit c (U Regular n2 e2 f2) = Ok r2 ->
  p_le c r1 r2 = true /\ (value c r1 <= value c r2)%Q.
Proof. exact (pack_mono c n1 e1 f1 n2 e2 f2 r1 r2). Qed.
Print Assumptions C11_pack_monotone.
Theorem C11_pack_fixed c neg e f v r :
  valid_cfg c -> exp_ok c -> 0 <= f < 2 ^ cF c -> real c v ->
  (uvalue (cF c) neg e f == value c v)%Q -> pack_posit c (U Regular neg e f) = Ok r -> r = v.
Proof. exact (pack_fixed c neg e f v r). Qed.
Print Assumptions C11_pack_fixed.
Example C11_ex : valid_cfg p16 /\ exp_ok p16 /\ 0 <= 65535 < 2 ^ cF p16 /\
  (uvalue 16 true 3 65535 <= uvalue 16 true 3 17)%Q /\
  pack_posit p16 (U Regular true 3 65535) = Ok (-28671) /\ pack_posit p16 (U Regular true 3 17) = Ok (-26624).
Proof. ex. Qed.

(** C17. Full statement: packing is defined for every unpacked number. It is defined exactly when
    [pack_room] holds of the exponent, and otherwise it shifts by at least the width of the type. *)
Theorem C17_pack_defined_partial c neg e f :
  valid_cfg c -> exp_ok c -> 0 <= f < 2 ^ cF c ->
  (pack_room c e -> exists r, pack_posit c (U Regular neg e f) = Ok r) /\
  (~ pack_room c e -> pack_posit c (U Regular neg e f) = UB ShiftCount) /\
  (roomy c -> pack_room c e).
Proof. exact (pack_defined c neg e f). Qed.
Print Assumptions C17_pack_defined_partial.
Theorem C17_pack_defined_refuted :
  exists c e f, valid_cfg c /\ exp_ok c /\ 0 <= f < 2 ^ cF c /\
    pack_posit c (U Regular false e f) = UB ShiftCount.
Proof. exact pack_undefined. Qed.
Print Assumptions C17_pack_defined_refuted.
Example C17_ex : valid_cfg p32 /\ exp_ok p32 /\ 0 <= 5 < 2 ^ cF p32 /\ pack_room p32 100 /\ ~ pack_room p32 108.
Proof. ex. Qed.
