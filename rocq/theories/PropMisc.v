(** Properties of the unit range helpers, the std:: functions and the unpacked numbers: C38-C43. *)
From Coq Require Import ZArith QArith Qabs List.
From Verif Require Import Res CInt Unpacked Cfg Spec Posit Configs Examples Misc1 Misc2 DivAny.
Open Scope Z_scope.

(** C38. isUnitRange decides membership of [0,1] for every pattern, special ones included. *)
Theorem C38_unit_range c v :
  valid_cfg c -> pattern c v -> (p_isUnitRange c v = true <-> real c v /\ (0 <= value c v <= 1)%Q).
Proof. exact (unit_range c v). Qed.
Print Assumptions C38_unit_range.
(** Full statement: urOneMinus is 1-x for every x in [0,1] of every instantiation. Proved for es=0; false for
    every instantiation with es>0, see the refutation. *)
Theorem C38_one_minus_partial c v :
  valid_cfg c -> ces c = 0 -> real c v -> (0 <= value c v <= 1)%Q ->
  exists r, p_urOneMinus c v = Ok r /\ real c r /\ (value c r == 1 - value c v)%Q.
Proof. exact (one_minus c v). Qed.
Print Assumptions C38_one_minus_partial.
Theorem C38_one_minus_refuted c :
  valid_cfg c -> 0 < ces c ->
  let v := 2 ^ (cN c - 3) in
  real c v /\ p_isUnitRange c v = true /\ (value c v == pow2 (- 2 ^ ces c))%Q /\
  p_urOneMinus c v = Ok v /\ ~ (value c v == 1 - value c v)%Q.
Proof. exact (one_minus_bad c). Qed.
Print Assumptions C38_one_minus_refuted.
Example C38_ex : valid_cfg p8 /\ ces p8 = 0 /\ real p8 19 /\ (0 <= value p8 19 <= 1)%Q /\ p_urOneMinus p8 19 = Ok 45 /\
  pattern p8 (-128) /\ p_isUnitRange p8 (-128) = false /\ valid_cfg p16 /\ 0 < ces p16.
Proof. ex. Qed.

(** C39. Full statement: for es=0 and every finite x, pseudosigmoid(x) lies in [0,1], is 1/2 at 0 and is monotone.
    Proved for x >= 0 in every instantiation and for all x when holder and posit have 32 bits; false for every
    negative x of every other instantiation, see the refutation. *)
Theorem C39_sigmoid_partial c v :
  valid_cfg c -> ces c = 0 -> real c v -> (0 <= value c v)%Q ->
  exists r, p_pseudosigmoid c v = Ok r /\ real c r /\ (1 # 2 <= value c r < 1)%Q /\
    (v = 0 -> (value c r == 1 # 2)%Q) /\
    (forall w s, real c w -> (value c v <= value c w)%Q -> p_pseudosigmoid c w = Ok s -> (value c r <= value c s)%Q).
Proof. exact (sigmoid c v). Qed.
Print Assumptions C39_sigmoid_partial.
Theorem C39_sigmoid_32 c v :
  valid_cfg c -> ces c = 0 -> cH c = 32 -> cN c = 32 -> real c v ->
  exists r, p_pseudosigmoid c v = Ok r /\ real c r /\ (0 <= value c r < 1)%Q /\
    (v = 0 -> (value c r == 1 # 2)%Q) /\
    (forall w s, real c w -> (value c v <= value c w)%Q -> p_pseudosigmoid c w = Ok s -> (value c r <= value c s)%Q).
Proof. exact (sigmoid_int32 c v). Qed.
Print Assumptions C39_sigmoid_32.
Theorem C39_sigmoid_refuted c v :
  valid_cfg c -> real c v -> v < 0 -> ~ (cH c = 32 /\ cN c = 32) ->
  exists r, p_pseudosigmoid c v = Ok r /\ ~ (real c r /\ (0 <= value c r < 1)%Q).
Proof. exact (sigmoid_negative c v). Qed.
Print Assumptions C39_sigmoid_refuted.
Example C39_ex : valid_cfg p8 /\ ces p8 = 0 /\ real p8 77 /\ (0 <= value p8 77)%Q /\ p_pseudosigmoid p8 77 = Ok 51 /\
  real p8 (-64) /\ ~ (cH p8 = 32 /\ cN p8 = 32) /\ real xmain (-5) /\
  valid_cfg xmain /\ ces xmain = 0 /\ cH xmain = 32 /\ cN xmain = 32.
Proof. ex. Qed.

(** C40. std::min and std::max pick the operand with the smaller and the larger value. *)
Theorem C40_min_max c a b :
  valid_cfg c -> real c a -> real c b ->
  (p_stdmin c a b = a \/ p_stdmin c a b = b) /\ (p_stdmax c a b = a \/ p_stdmax c a b = b) /\
  (value c (p_stdmin c a b) <= value c a)%Q /\ (value c (p_stdmin c a b) <= value c b)%Q /\
  (value c a <= value c (p_stdmax c a b))%Q /\ (value c b <= value c (p_stdmax c a b))%Q.
Proof. exact (min_max c a b). Qed.
Print Assumptions C40_min_max.
(** Full statement: std::sqrt(x) squared is x up to rounding for every x >= 0. Proved for 0 and 1 only; false in
    general because std::sqrt computes the absolute value. *)
Theorem C40_sqrt_partial c v :
  valid_cfg c -> real c v -> (value c v == 0)%Q \/ (value c v == 1)%Q ->
  exists r, p_sqrt c v = Ok r /\ real c r /\ (value c r * value c r == value c v)%Q.
Proof. exact (sqrt_fixed c v). Qed.
Print Assumptions C40_sqrt_partial.
Theorem C40_sqrt_is_abs c v : p_sqrt c v = p_abs c v.
Proof. exact (sqrt_abs c v). Qed.
Print Assumptions C40_sqrt_is_abs.
Theorem C40_sqrt_refuted :
  exists r, real p16 0x5800 /\ (value p16 0x5800 == 3)%Q /\ p_sqrt p16 0x5800 = Ok r /\
    (value p16 r * value p16 r == 9)%Q /\ p_mul p16 r r <> Ok 0x5800.
Proof. exact sqrt_bad. Qed.
Print Assumptions C40_sqrt_refuted.
Example C40_ex : valid_cfg p16 /\ real p16 (-777) /\ real p16 123 /\ p_stdmin p16 (-777) 123 = -777 /\ p_stdmax p16 (-777) 123 = 123 /\
  real p16 16384 /\ (value p16 16384 == 1)%Q.
Proof. ex. Qed.

(** C41. Equality of unpacked numbers is equality of what they denote. *)
Theorem C41_eq_regular F n e f n' e' f' :
  0 < F -> 0 <= f < 2 ^ F -> 0 <= f' < 2 ^ F ->
  (u_eq (U Regular n e f) (U Regular n' e' f') = true <-> (uvalue F n e f == uvalue F n' e' f')%Q).
Proof. exact (eq_regular F n e f n' e' f'). Qed.
Print Assumptions C41_eq_regular.
Theorem C41_eq_special a b :
  utyp a <> Regular \/ utyp b <> Regular ->
  (u_eq a b = true <-> utyp a <> NaN /\ utyp a = utyp b /\ uneg a = uneg b).
Proof. exact (eq_special a b). Qed.
Print Assumptions C41_eq_special.
(** Full statement: a != b is the negation of a == b. Proved when an operand is NaN; false for every other pair,
    where != gives the same answer as ==. *)
Theorem C41_ne_partial a b : utyp a = NaN \/ utyp b = NaN -> u_ne a b = negb (u_eq a b).
Proof. exact (ne_nan a b). Qed.
Print Assumptions C41_ne_partial.
Theorem C41_ne_refuted a b : utyp a <> NaN -> utyp b <> NaN -> u_ne a b = u_eq a b.
Proof. exact (ne_is_eq a b). Qed.
Print Assumptions C41_ne_refuted.
Example C41_ex : (let a := U Regular true 5 77 in let b := U Regular true 5 78 in u_eq a a = true /\ u_eq a b = false /\ u_ne a b = false) /\
  utyp (u_special Infinity true) <> Regular /\ utyp u_nan = NaN.
Proof. ex. Qed.

(** C42. Full statement: -u denotes minus u for every unpacked u; u - zero is u. Proved for regular numbers; false
    for zero, infinity and NaN, which become the regular number 1 or -1. *)
Theorem C42_neg_partial F E n e f :
  is_width F -> is_width E -> 0 <= f < 2 ^ F -> - 2 ^ (E - 1) <= e < 2 ^ (E - 1) ->
  exists n', u_neg F E (U Regular n e f) = U Regular n' e f /\ (uvalue F n' e f == - uvalue F n e f)%Q.
Proof. exact (neg_regular F E n e f). Qed.
Print Assumptions C42_neg_partial.
Theorem C42_neg_refuted F E t n :
  is_width F -> is_width E -> t <> Regular -> u_neg F E (u_special t n) = U Regular (negb n) 0 0.
Proof. exact (neg_special F E t n). Qed.
Print Assumptions C42_neg_refuted.
Theorem C42_sub_zero_refuted :
  exists a r : unpacked, a = U Regular false 3 0 /\ (uvalue 32 false 3 0 == 8)%Q /\
    u_sub 32 16 a u_zero = Ok r /\ r = U Regular false 2 0xc0000000 /\ (uvalue 32 false 2 0xc0000000 == 7)%Q.
Proof. exact sub_zero_bad. Qed.
Print Assumptions C42_sub_zero_refuted.
Example C42_ex : is_width 32 /\ is_width 16 /\ 0 <= 5 < 2 ^ 32 /\ - 2 ^ (16 - 1) <= -7 < 2 ^ (16 - 1) /\
  u_neg 32 16 (U Regular true (-7) 5) = U Regular false (-7) 5.
Proof. conj; ex. Qed.

(** C43. Relative error of unpacked multiplication (any fractions: below 2^(3-F); low bit clear: below 2^(2-F)). *)
Theorem C43_mul_error F E na nb ea eb fa fb :
  is_width F -> is_width E -> 0 <= fa < 2 ^ F -> 0 <= fb < 2 ^ F ->
  - 2 ^ (E - 1) <= ea + eb -> ea + eb + 1 < 2 ^ (E - 1) ->
  exists e f, u_mul F E (U Regular na ea fa) (U Regular nb eb fb) = Ok (U Regular (xorb na nb) e f) /\ 0 <= f < 2 ^ F /\
    let x := (uvalue F na ea fa * uvalue F nb eb fb)%Q in
    let r := uvalue F (xorb na nb) e f in
    (Qabs r <= Qabs x)%Q /\ ((1 - pow2 (3 - F)) * Qabs x <= Qabs r)%Q /\
    (fa mod 2 = 0 -> fb mod 2 = 0 -> ((1 - pow2 (2 - F)) * Qabs x <= Qabs r)%Q).
Proof. exact (mul_error F E na nb ea eb fa fb). Qed.
Print Assumptions C43_mul_error.
(** The same for division by a number whose two low fraction bits are clear. *)
Theorem C43_div_error F E na nb ea eb fa fb :
  is_width F -> is_width E -> 0 <= fa < 2 ^ F -> 0 <= fb < 2 ^ F -> fb mod 4 = 0 ->
  - 2 ^ (E - 1) <= ea - eb - 1 -> ea - eb < 2 ^ (E - 1) ->
  exists e f, u_div F E (U Regular na ea fa) (U Regular nb eb fb) = Ok (U Regular (xorb na nb) e f) /\ 0 <= f < 2 ^ F /\
    let x := (uvalue F na ea fa / uvalue F nb eb fb)%Q in
    let r := uvalue F (xorb na nb) e f in
    (Qabs r <= Qabs x)%Q /\ ((1 - pow2 (1 - F)) * Qabs x <= Qabs r)%Q /\
    (fa mod 2 = 0 -> ((1 - pow2 (- F)) * Qabs x <= Qabs r)%Q).
Proof. exact (div_error F E na nb ea eb fa fb). Qed.
Print Assumptions C43_div_error.
Theorem C43_inv_error F E na ea fa :
  is_width F -> is_width E -> 0 <= fa < 2 ^ F -> fa mod 4 = 0 ->
  - 2 ^ (E - 1) <= - ea - 1 -> - ea < 2 ^ (E - 1) ->
  exists e f, u_inv F E (U Regular na ea fa) = Ok (U Regular na e f) /\ 0 <= f < 2 ^ F /\
    (Qabs (uvalue F na e f) <= Qabs (1 / uvalue F na ea fa))%Q /\
    ((1 - pow2 (- F)) * Qabs (1 / uvalue F na ea fa) <= Qabs (uvalue F na e f))%Q.
Proof. exact (inv_error F E na ea fa). Qed.
Print Assumptions C43_inv_error.
(** Without the condition on the divisor the quotient can be off by a factor of nearly two. *)
Theorem C43_div_any_refuted :
  u_div 8 16 (U Regular false 0 0) (U Regular false 0 2) = Ok (U Regular false (-1) 0) /\
  (uvalue 8 false 0 0 / uvalue 8 false 0 2 == 256 # 258)%Q /\ (uvalue 8 false (-1) 0 == 1 # 2)%Q.
Proof. exact div_bad. Qed.
Print Assumptions C43_div_any_refuted.
(** Any fractions at all: the quotient is within a few last places unless the divisor's fraction, without its last bit, is odd and just above the dividend's;
    then it is about half of what it should be. *)
Theorem C43_div_any F E na nb ea eb fa fb :
  is_width F -> is_width E -> 0 <= fa < 2 ^ F -> 0 <= fb < 2 ^ F ->
  - 2 ^ (E - 1) <= ea - eb - 1 -> ea - eb < 2 ^ (E - 1) ->
  ~ (fb mod 4 >= 2 /\ fa / 2 = fb / 2 - 1) ->
  exists e f, u_div F E (U Regular na ea fa) (U Regular nb eb fb) = Ok (U Regular (xorb na nb) e f) /\ 0 <= f < 2 ^ F /\ ea - eb - 1 <= e <= ea - eb /\
    let x := (uvalue F na ea fa / uvalue F nb eb fb)%Q in
    let r := uvalue F (xorb na nb) e f in
    ((1 - pow2 (1 - F)) * Qabs x <= Qabs r)%Q /\ (Qabs r <= (1 + pow2 (2 - F)) * Qabs x)%Q.
Proof. exact (div_any F E na nb ea eb fa fb). Qed.
Print Assumptions C43_div_any.
Theorem C43_div_half_refuted F E na nb ea eb fa fb :
  is_width F -> is_width E -> 0 <= fa < 2 ^ F -> 0 <= fb < 2 ^ F ->
  - 2 ^ (E - 1) <= ea - eb - 1 -> ea - eb < 2 ^ (E - 1) ->
  fb mod 4 >= 2 -> fa / 2 = fb / 2 - 1 ->
  u_div F E (U Regular na ea fa) (U Regular nb eb fb) = Ok (U Regular (xorb na nb) (ea - eb - 1) 0) /\
  ((1 - pow2 (2 - F)) * Qabs (uvalue F na ea fa / uvalue F nb eb fb) <= 2 * Qabs (uvalue F (xorb na nb) (ea - eb - 1) 0))%Q /\
  (2 * Qabs (uvalue F (xorb na nb) (ea - eb - 1) 0) <= (1 + pow2 (2 - F)) * Qabs (uvalue F na ea fa / uvalue F nb eb fb))%Q.
Proof. exact (div_half F E na nb ea eb fa fb). Qed.
Print Assumptions C43_div_half_refuted.
(** The inverse is one divided by the number. *)
Theorem C43_inv_is_div F E na ea fa :
  is_width F -> is_width E -> 0 <= fa < 2 ^ F -> - 2 ^ (E - 1) <= - ea - 1 -> - ea < 2 ^ (E - 1) ->
  u_inv F E (U Regular na ea fa) = u_div F E (U Regular false 0 0) (U Regular na ea fa).
Proof. exact (inv_is_div F E na ea fa). Qed.
Print Assumptions C43_inv_is_div.
Example C43_ex : is_width 32 /\ is_width 16 /\ 0 <= 0xabcdef00 < 2 ^ 32 /\ 0 <= 0x13579bdc < 2 ^ 32 /\ 0x13579bdc mod 4 = 0 /\
  u_mul 32 16 (U Regular true 100 0xabcdef00) (U Regular false (-300) 0x13579bdc) = Ok (U Regular true (-200) 3424689964) /\
  u_div 32 16 (U Regular true 100 0xabcdef00) (U Regular false (-300) 0x13579bdc) = Ok (U Regular true 400 2378204782).
Proof. conj; ex. Qed.
Example C43_ex2 : ~ (7 mod 4 >= 2 /\ 9 / 2 = 7 / 2 - 1) /\ (7 mod 4 >= 2 /\ 5 / 2 = 7 / 2 - 1) /\
  u_div 32 16 (U Regular true 100 9) (U Regular false (-300) 7) = Ok (U Regular true 400 1) /\
  u_div 32 16 (U Regular true 100 5) (U Regular false (-300) 7) = Ok (U Regular true 399 0).
Proof. split; [intros [A B]; discriminate B|]. split; [split; [discriminate|reflexivity]|]. split; vm_compute; reflexivity. Qed.
