(** Inverses and doubles of unpacked numbers that were read from floats. *)
From Coq Require Import ZArith QArith Qabs Lia Bool List.
From Verif Require Import Res Bits Traits Unpacked Cfg Spec Examples FloatLaws.
Open Scope Z_scope.

(** C161. A nonzero float of any format is read into fractions with at least four bits more. The exponent and the sign are those of the float. *)
Theorem C161_frexp eb fb F E b q :
  fmt_ok eb fb -> is_width F -> is_width E -> 16 <= E -> fb + 4 <= F -> 0 <= b < 2 ^ (eb + fb + 1) -> ieee_val eb fb b = FinVal q -> ~ (q == 0)%Q ->
  exists n e f, u_unpack_xfloati F E (any_floattrait eb fb true) b = Ok (U Regular n e f) /\ (pow2 e <= Qabs q)%Q /\ (Qabs q < pow2 (e + 1))%Q /\ (n = true <-> (q < 0)%Q).
Proof. intros FO WF WE E16 FF B V NZ. exact (fl_frexp eb fb F E FO WF WE E16 FF b q B V NZ). Qed.
Print Assumptions C161_frexp.
(** Two times the number is the number plus itself, and divided by the number it is two. *)
Theorem C161_double eb fb F E b q :
  fmt_ok eb fb -> is_width F -> is_width E -> 16 <= E -> fb + 4 <= F -> 0 <= b < 2 ^ (eb + fb + 1) -> ieee_val eb fb b = FinVal q -> ~ (q == 0)%Q ->
  let two := U Regular false 1 0 in
  (uvalue F false 1 0 == 2)%Q /\
  exists n e f d, u_unpack_xfloati F E (any_floattrait eb fb true) b = Ok (U Regular n e f) /\ u_mul F E two (U Regular n e f) = Ok d /\
    u_add F E (U Regular n e f) (U Regular n e f) = Ok d /\ u_div F E d (U Regular n e f) = Ok two /\
    d = U Regular n (e + 1) f /\ (uvalue F n (e + 1) f == 2 * q)%Q.
Proof. intros FO WF WE E16 FF B V NZ. exact (conj (two_value F) (fl_double eb fb F E FO WF WE E16 FF b q B V NZ)). Qed.
Print Assumptions C161_double.
(** The inverse is one divided by the float to within the last place, the inverse of the inverse is the float to within eight last places, and the number times
    its inverse is one to within sixteen. Missing: fractions with less than four bits more than the float, see below. *)
Theorem C161_inverse_partial eb fb F E b q :
  fmt_ok eb fb -> is_width F -> is_width E -> 16 <= E -> fb + 4 <= F -> 0 <= b < 2 ^ (eb + fb + 1) -> ieee_val eb fb b = FinVal q -> ~ (q == 0)%Q ->
  exists n e f ei fi ej fj er fr, u_unpack_xfloati F E (any_floattrait eb fb true) b = Ok (U Regular n e f) /\
    u_inv F E (U Regular n e f) = Ok (U Regular n ei fi) /\ u_inv F E (U Regular n ei fi) = Ok (U Regular n ej fj) /\
    u_mul F E (U Regular n e f) (U Regular n ei fi) = Ok (U Regular false er fr) /\
    (Qabs (uvalue F n ei fi - 1 / q) <= pow2 (- F) * Qabs (1 / q))%Q /\
    (Qabs (uvalue F n ej fj - q) <= pow2 (3 - F) * Qabs q)%Q /\
    (Qabs (uvalue F false er fr - 1) <= pow2 (4 - F))%Q.
Proof. intros FO WF WE E16 FF B V NZ. exact (fl_inverse eb fb F E FO WF WE E16 FF b q B V NZ). Qed.
Print Assumptions C161_inverse_partial.
(** -10 as a float with 32 bit fractions, as in tests/testunpacked.cpp: 1/10, 10 and 1, all inexact. *)
Example C161_ex : fmt_ok 8 23 /\ is_width 32 /\ is_width 32 /\ 23 + 4 <= 32 /\ 0 <= 0xc1200000 < 2 ^ (8 + 23 + 1) /\
  (exists q, ieee_val 8 23 0xc1200000 = FinVal q /\ (q == -10)%Q) /\
  u_unpack_xfloati 32 32 (any_floattrait 8 23 true) 0xc1200000 = Ok (U Regular true 3 0x40000000) /\
  u_inv 32 32 (U Regular true 3 0x40000000) = Ok (U Regular true (-4) 0x99999999) /\
  u_inv 32 32 (U Regular true (-4) 0x99999999) = Ok (U Regular true 3 0x40000001) /\
  u_mul 32 32 (U Regular true 3 0x40000000) (U Regular true (-4) 0x99999999) = Ok (U Regular false (-1) 0xfffffffc).
Proof.
  split; [constructor; unfold is_width; lia|]. unfold is_width. do 3 (split; [lia|]). split; [vm_compute; split; [discriminate|reflexivity]|].
  split; [eexists; split; [vm_compute; reflexivity|vm_compute; reflexivity]|].
  do 3 (split; [vm_compute; reflexivity|]). vm_compute; reflexivity.
Qed.
(** With fractions only as wide as needed to hold the float this fails: 127.5 in the 16 bit format with 7 fraction bits, inverted twice with 8 bit fractions, is
    64. *)
Theorem C161_narrow_refuted :
  exists q, ieee_val 8 7 0x42ff = FinVal q /\ (q == 255 # 2)%Q /\
  exists x i, u_unpack_xfloati 8 16 (any_floattrait 8 7 true) 0x42ff = Ok x /\ u_inv 8 16 x = Ok i /\ u_inv 8 16 i = Ok (U Regular false 6 0) /\
    (uvalue 8 false 6 0 == 64)%Q.
Proof. exact inv_narrow_bad. Qed.
Print Assumptions C161_narrow_refuted.
