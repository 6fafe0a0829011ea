(** The listing program and the flags of numeric_limits<Posit>: C104, C105. *)
From Coq Require Import ZArith QArith List Sorted Lia.
From Verif Require Import Res CInt Spec Cfg Posit ListP Configs Examples ListProof ListProof2 NlExp.
Import ListNotations.
Open Scope Z_scope.

(** In this file [lp_signed c m = Some r] says that the loop ends within m rounds, listing r. *)

(** C104. Full claim: for every instantiation, the listing program terminates having listed every real posit exactly
    once in increasing order of value, or, in unsigned order, every pattern exactly once in increasing unsigned order.
    Missing: the default order needs a holder below 32 bits, or spare bits, or WithNanInf; the unsigned order needs at
    most 30 bits and a holder below 64 bits, which has no type twice as wide. Otherwise see below. *)
Theorem C104_signed_partial c : valid_cfg c -> cH c < 32 \/ cN c < cH c \/ csp c = WithNanInf ->
  exists n l, (forall m, (n <= m)%nat -> lp_signed c m = Some (Ok l)) /\
  (forall v, In v l <-> real c v) /\ StronglySorted (fun a b => (value c a < value c b)%Q) l.
Proof. exact (lp_signed_ok c). Qed.
Print Assumptions C104_signed_partial.
(** The increment after the last posit overflows. *)
Theorem C104_signed_refuted c : valid_cfg c -> ~ (cH c < 32 \/ cN c < cH c \/ csp c = WithNanInf) ->
  exists n, forall m, (n <= m)%nat -> lp_signed c m = Some (UB SignedOverflow).
Proof. exact (lp_signed_ub c). Qed.
Print Assumptions C104_signed_refuted.
Theorem C104_unsigned_partial c : valid_cfg c -> cH c < 64 -> cN c <= 30 ->
  exists n l, (forall m, (n <= m)%nat -> lp_unsigned c m = Some (Ok l)) /\
  (forall v, In v l <-> pattern c v) /\ StronglySorted (fun a b => a mod 2 ^ cN c < b mod 2 ^ cN c) l.
Proof. exact (lp_unsigned_ok c). Qed.
Print Assumptions C104_unsigned_partial.
(** With 31 bits nothing is listed. *)
Theorem C104_unsigned_31_refuted c : cN c = 31 -> forall m, lp_unsigned c (S m) = Some (Ok []).
Proof. exact (lp_unsigned_31 c). Qed.
Print Assumptions C104_unsigned_31_refuted.
Theorem C104_unsigned_32_refuted c : 32 <= cN c -> forall m, lp_unsigned c (S m) = Some (UB ShiftCount).
Proof. exact (lp_unsigned_32 c). Qed.
Print Assumptions C104_unsigned_32_refuted.
Example C104_ex : valid_cfg (Cfg 8 4 1 8 WithNan) /\
  lp_signed (Cfg 8 4 1 8 WithNan) 15 = Some (Ok [-7; -6; -5; -4; -3; -2; -1; 0; 1; 2; 3; 4; 5; 6; 7]) /\
  lp_signed (Cfg 8 4 1 8 WithNan) 14 = None /\
  lp_unsigned (Cfg 8 4 1 8 WithNan) 17 = Some (Ok [0; 1; 2; 3; 4; 5; 6; 7; -8; -7; -6; -5; -4; -3; -2; -1]) /\
  valid_cfg xmain /\ cN xmain = 32 /\ cN p16 <= 30 /\ cH p16 < 32.
Proof. split; [cfg_tac|]. ex. Qed.

(** C105. Full claim: numeric_limits<Posit> tells the truth about the format. Missing: has_infinity is true for formats
    without infinity, is_bounded is false though all posits lie between two of them, and digits10 is too large (refuted
    below). *)
Theorem C105_infinity_partial c : valid_cfg c -> csp c <> WithNan -> nl_has_infinity c = true /\ is_inf c (nl_infinity c).
Proof. exact (nl_inf_ok c). Qed.
Print Assumptions C105_infinity_partial.
(** infinity() is NaN, and the format has no infinity. *)
Theorem C105_infinity_refuted c : valid_cfg c -> csp c = WithNan ->
  nl_has_infinity c = true /\ is_nan c (nl_infinity c) /\ forall v, ~ is_inf c v.
Proof. exact (nl_inf_bad c). Qed.
Print Assumptions C105_infinity_refuted.
Theorem C105_nan c : valid_cfg c -> (nl_has_quiet_NaN c = true <-> exists v, is_nan c v) /\
  (nl_has_quiet_NaN c = true -> is_nan c (nl_quiet_NaN c)).
Proof. exact (nl_nan c). Qed.
Print Assumptions C105_nan.
Theorem C105_denorm_min c : valid_cfg c -> real c (nl_denorm_min c) /\ (0 < value c (nl_denorm_min c))%Q /\
  forall w, real c w -> (0 < value c w)%Q -> (value c (nl_denorm_min c) <= value c w)%Q.
Proof. exact (nl_denorm c). Qed.
Print Assumptions C105_denorm_min.
Theorem C105_bounded_refuted c : valid_cfg c -> nl_is_bounded c = false /\
  exists lo hi, real c lo /\ real c hi /\ forall v, real c v -> (value c lo <= value c v <= value c hi)%Q.
Proof. exact (nl_bounded_bad c). Qed.
Print Assumptions C105_bounded_refuted.
(** Posit<int16_t,16,1,uint16_t,WithNan> promises three decimal digits, but 512 and 513 become the same posit. *)
Theorem C105_digits10_refuted : nl_digits10 p16 = 3 /\ exists v, p_of_int p16 512 = Ok v /\ p_of_int p16 513 = Ok v.
Proof. exact nl_digits_bad. Qed.
Print Assumptions C105_digits10_refuted.
(** In the C++ standard max_exponent (min_exponent) is the largest (least) n for which 2^(n-1) is a number of the
    type. The exponents given by the code are those of the largest and least posit, one less than that. *)
Theorem C105_exponents_refuted c : valid_cfg c -> exp_ok c ->
  exists lo hi, nl_min_exponent c = Ok lo /\ nl_max_exponent c = Ok hi /\
    (exists v, real c v /\ (value c v == pow2 ((lo + 1) - 1))%Q) /\
    (exists v, real c v /\ (value c v == pow2 ((hi + 1) - 1))%Q) /\
    (forall n v, real c v -> (value c v == pow2 (n - 1))%Q -> lo + 1 <= n <= hi + 1).
Proof. exact (nl_exponents c). Qed.
Print Assumptions C105_exponents_refuted.
Example C105_ex : valid_cfg p16 /\ csp p16 = WithNan /\ valid_cfg p16ni /\ csp p16ni <> WithNan /\
  nl_infinity p16ni = 32767 /\ nl_quiet_NaN p16ni = -32768 /\ nl_has_quiet_NaN p16i = false /\
  exp_ok p16ni /\ nl_max_exponent p16 = Ok 28.
Proof. ex. Qed.
