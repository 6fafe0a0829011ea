(** Accuracy of pseudosigmoid and pseudosoftplus against the functions they name, over the real numbers of the
    standard library: C97 and C94. *)
From Coq Require Import ZArith QArith Reals Qreals.
From Verif Require Import Res Cfg Spec Posit Configs Examples Logistic2.
Open Scope R_scope.

(** C97. pseudosigmoid, documented as 1/(exp(-x)+1), for es=0. Full statement: within 1/16 plus one unit of the
    last place below 1 of the logistic function for every finite x. Proved for x >= 0 in every instantiation and
    for all x when holder and posit have 32 bits; negative x of other instantiations give no number in [0,1)
    (C39_sigmoid_refuted); for posit8 every negative x gives a number off by more than 1/2. *)
Theorem C97_sigmoid_accuracy_partial c v :
  valid_cfg c -> ces c = 0%Z -> real c v -> (0 <= value c v)%Q ->
  exists r, p_pseudosigmoid c v = Ok r /\ Rabs (Q2R (value c r) - / (1 + exp (- Q2R (value c v)))) <= / 16 + Q2R (pow2 (2 - cN c)).
Proof. exact (sigmoid_close c v). Qed.
Print Assumptions C97_sigmoid_accuracy_partial.
Theorem C97_sigmoid_accuracy_32 c v :
  valid_cfg c -> ces c = 0%Z -> cH c = 32%Z -> cN c = 32%Z -> real c v ->
  exists r, p_pseudosigmoid c v = Ok r /\ Rabs (Q2R (value c r) - / (1 + exp (- Q2R (value c v)))) <= / 16 + Q2R (pow2 (2 - cN c)).
Proof. exact (sigmoid_close_32 c v). Qed.
Print Assumptions C97_sigmoid_accuracy_32.
Theorem C97_sigmoid_accuracy_refuted v : real p8 v -> (v < 0)%Z ->
  exists r, p_pseudosigmoid p8 v = Ok r /\ real p8 r /\ Rabs (Q2R (value p8 r) - / (1 + exp (- Q2R (value p8 v)))) > / 2.
Proof. exact (sigmoid_off8 v). Qed.
Print Assumptions C97_sigmoid_accuracy_refuted.
Example C97_ex : valid_cfg p8 /\ ces p8 = 0%Z /\ real p8 77 /\ (0 <= value p8 77)%Q /\ p_pseudosigmoid p8 77 = Ok 51%Z /\
  valid_cfg xmain /\ ces xmain = 0%Z /\ cH xmain = 32%Z /\ cN xmain = 32%Z /\ real xmain (-5) /\
  real p8 (-64) /\ (value p8 (-64) == -1)%Q /\ p_pseudosigmoid p8 (-64) = Ok (-48)%Z.
Proof. ex. Qed.

(** C94, accuracy. Claim: pseudosoftplus approximates ln(1+exp(x)). False: for every even pattern of a number x >= 1 the
    result exceeds it by more than x-1. *)
Theorem C94_accuracy_refuted c v :
  valid_cfg c -> real c v -> (1 <= value c v)%Q -> (v mod 2 = 0)%Z -> csp c <> WithNanInf \/ (value c v < value c (maxreal c))%Q ->
  exists r, p_pseudosoftplus c v = Ok r /\ Q2R (value c r) - ln (1 + exp (Q2R (value c v))) > Q2R (value c v) - 1.
Proof. exact (softplus_off c v). Qed.
Print Assumptions C94_accuracy_refuted.
Example C94_accuracy_ex : valid_cfg p16 /\ real p16 24576 /\ (value p16 24576 == 4)%Q /\ (24576 mod 2 = 0)%Z /\ csp p16 <> WithNanInf /\ p_pseudosoftplus p16 24576 = Ok 28672%Z /\
  (value p16 28672 == 16)%Q.
Proof. ex. Qed.
