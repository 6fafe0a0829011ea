(** Arithmetic on unpacked numbers read from floats. *)
From Coq Require Import ZArith QArith Qabs Lia Bool List.
From Verif Require Import Res Bits Traits Unpacked Cfg Spec Examples FloatArith.
Open Scope Z_scope.

(** C160. Floats [bx], [by_] of any format are read as unpacked numbers. If their exact product is a float, the product of the unpacked numbers is that
    float, read. *)
Theorem C160_mul eb fb F E bx by_ qx qy bz qz :
  fmt_ok eb fb -> is_width F -> is_width E -> 16 <= E -> fb + 2 <= F ->
  0 <= bx < 2 ^ (eb + fb + 1) -> 0 <= by_ < 2 ^ (eb + fb + 1) -> 0 <= bz < 2 ^ (eb + fb + 1) ->
  ieee_val eb fb bx = FinVal qx -> ieee_val eb fb by_ = FinVal qy -> ieee_val eb fb bz = FinVal qz ->
  ~ (qx == 0)%Q -> ~ (qy == 0)%Q -> (qz == qx * qy)%Q ->
  let read := u_unpack_xfloati F E (any_floattrait eb fb true) in
  exists x y z, read bx = Ok x /\ read by_ = Ok y /\ read bz = Ok z /\ u_mul F E x y = Ok z.
Proof. exact (fl_mul_all eb fb F E bx by_ qx qy bz qz). Qed.
Print Assumptions C160_mul.
(** The same for quotients. *)
Theorem C160_div eb fb F E bx by_ qx qy bz qz :
  fmt_ok eb fb -> is_width F -> is_width E -> 16 <= E -> fb + 2 <= F ->
  0 <= bx < 2 ^ (eb + fb + 1) -> 0 <= by_ < 2 ^ (eb + fb + 1) -> 0 <= bz < 2 ^ (eb + fb + 1) ->
  ieee_val eb fb bx = FinVal qx -> ieee_val eb fb by_ = FinVal qy -> ieee_val eb fb bz = FinVal qz ->
  ~ (qx == 0)%Q -> ~ (qy == 0)%Q -> (qz == qx / qy)%Q ->
  let read := u_unpack_xfloati F E (any_floattrait eb fb true) in
  exists x y z, read bx = Ok x /\ read by_ = Ok y /\ read bz = Ok z /\ u_div F E x y = Ok z.
Proof. exact (fl_div_all eb fb F E bx by_ qx qy bz qz). Qed.
Print Assumptions C160_div.
(** The same for sums ([neg] = false) and differences ([neg] = true) of nonzero floats. A zero result is a zero of the same sign. Missing: a float minus
    zero, and fractions of less than four bits more than the float's, both wrong, see below. *)
Theorem C160_add_partial eb fb F E bx by_ qx qy bz qz (neg : bool) :
  fmt_ok eb fb -> is_width F -> is_width E -> 16 <= E -> fb + 4 <= F ->
  0 <= bx < 2 ^ (eb + fb + 1) -> 0 <= by_ < 2 ^ (eb + fb + 1) -> 0 <= bz < 2 ^ (eb + fb + 1) ->
  ieee_val eb fb bx = FinVal qx -> ieee_val eb fb by_ = FinVal qy -> ieee_val eb fb bz = FinVal qz ->
  ~ (qx == 0)%Q -> ~ (qy == 0)%Q -> (qz == if neg then qx - qy else qx + qy)%Q ->
  let read := u_unpack_xfloati F E (any_floattrait eb fb true) in
  let op := if neg then u_sub F E else u_add F E in
  exists x y z r, read bx = Ok x /\ read by_ = Ok y /\ read bz = Ok z /\ op x y = Ok r /\ (utyp r = utyp z /\ uneg r = uneg z) /\ (utyp z <> Zero -> r = z).
Proof. exact (fl_add_all eb fb F E bx by_ qx qy bz qz neg). Qed.
Print Assumptions C160_add_partial.
(** A zero added on either side changes nothing; a product with zero is zero. *)
Theorem C160_zero eb fb F E bx by_ qx qy :
  fmt_ok eb fb -> is_width F -> is_width E -> 16 <= E -> fb <= F ->
  0 <= bx < 2 ^ (eb + fb + 1) -> 0 <= by_ < 2 ^ (eb + fb + 1) ->
  ieee_val eb fb bx = FinVal qx -> ieee_val eb fb by_ = FinVal qy -> (qy == 0)%Q ->
  let read := u_unpack_xfloati F E (any_floattrait eb fb true) in
  exists x y, read bx = Ok x /\ read by_ = Ok y /\ u_add F E x y = Ok x /\ (~ (qx == 0)%Q -> u_add F E y x = Ok x) /\
    (exists z1 z2, u_mul F E x y = Ok z1 /\ u_mul F E y x = Ok z2 /\ utyp z1 = Zero /\ utyp z2 = Zero).
Proof. exact (fl_zero_all eb fb F E bx by_ qx qy). Qed.
Print Assumptions C160_zero.
(** 3200, 1500000 and their sum as doubles with 64 bit fractions, as in tests/testunpacked.cpp; 2 * 1500000 and 3000000 / 2; 1500000 + 0. *)
Example C160_ex : fmt_ok 11 52 /\ is_width 64 /\ is_width 32 /\ 52 + 4 <= 64 /\
  (exists q, ieee_val 11 52 0x40a9000000000000 = FinVal q /\ (q == 3200)%Q) /\
  (exists q, ieee_val 11 52 0x4136e36000000000 = FinVal q /\ (q == 1500000)%Q) /\
  (exists q, ieee_val 11 52 0x4136efe000000000 = FinVal q /\ (q == 1503200)%Q) /\
  (exists q, ieee_val 11 52 0x4146e36000000000 = FinVal q /\ (q == 3000000)%Q) /\
  (exists q, ieee_val 11 52 0x4000000000000000 = FinVal q /\ (q == 2)%Q) /\
  (exists q, ieee_val 11 52 0x8000000000000000 = FinVal q /\ (q == 0)%Q) /\
  (let read := u_unpack_xfloati 64 32 (any_floattrait 11 52 true) in
   exists x y z w t, read 0x40a9000000000000 = Ok x /\ read 0x4136e36000000000 = Ok y /\ read 0x4136efe000000000 = Ok z /\ read 0x4146e36000000000 = Ok w /\
     read 0x4000000000000000 = Ok t /\ u_add 64 32 x y = Ok z /\ u_mul 64 32 y t = Ok w /\ u_div 64 32 w t = Ok y).
Proof.
  split; [constructor; unfold is_width; lia|]. unfold is_width. do 3 (split; [lia|]).
  do 6 (split; [eexists; split; [vm_compute; reflexivity|vm_compute; reflexivity]|]).
  eexists _, _, _, _, _. do 7 (split; [vm_compute; reflexivity|]). vm_compute; reflexivity.
Qed.
(** 8 - 0: minus takes the zero that was read for a tiny number and the addition then shifts by more bits than there are. *)
Theorem C160_sub_zero_refuted :
  let read := u_unpack_xfloati 64 32 (any_floattrait 11 52 true) in
  (exists q, ieee_val 11 52 0x4020000000000000 = FinVal q /\ (q == 8)%Q) /\ (exists q, ieee_val 11 52 0 = FinVal q /\ (q == 0)%Q) /\
  exists x y, read 0x4020000000000000 = Ok x /\ read 0 = Ok y /\ u_sub 64 32 x y = UB ShiftCount.
Proof. exact fl_sub_zero_bad. Qed.
Print Assumptions C160_sub_zero_refuted.
(** With 8 bit fractions and the 16 bit format with 7 of them, 129/128 + 129/128 is 2, although 129/64 is a float. *)
Theorem C160_narrow_refuted :
  let read := u_unpack_xfloati 8 16 (any_floattrait 8 7 true) in
  (exists q, ieee_val 8 7 0x3f81 = FinVal q /\ (q == 129 # 128)%Q) /\ (exists q, ieee_val 8 7 0x4001 = FinVal q /\ (q == 129 # 64)%Q) /\
  (exists q, ieee_val 8 7 0x4000 = FinVal q /\ (q == 2)%Q) /\
  exists x z r, read 0x3f81 = Ok x /\ read 0x4001 = Ok z /\ read 0x4000 = Ok r /\ u_add 8 16 x x = Ok r /\ r <> z.
Proof. exact fl_narrow_bad. Qed.
Print Assumptions C160_narrow_refuted.
