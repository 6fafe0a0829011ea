(** exp2 of posit12: what the shipped table holds, and where it comes from. *)
From Coq Require Import ZArith QArith List Bool.
From Verif Require Import Res CInt Traits Unpacked Cfg Posit Configs Spec SpecTab SpecFloat SpecAny SpecGen SpecExp Tab Gen Examples
  FloatProof TabProof4 GenProof4 GenProof6 Exp12b Exp12c Exp12d.
From Verif Require Tbl12.
Import ListNotations.
Open Scope Z_scope.

(** C64. exp2 of posit12, the whole table. Full claim: truncation of 2^x for every x. It holds for 0 <= x < 128 and for
    -143 < x < -2^-25. Missing because false: just below 0 the entry is 1, which is above 2^x; from 128 on it is NaN; up
    to -143 it is 0, which is not a positive number. *)
Theorem C64_posit12_exp2_partial v : real p12 v -> ((0 <= value p12 v < 128) \/ (-143 < value p12 v < -1 # 2 ^ 25))%Q ->
  exists r, t12_exp2 v = Ok r /\ exp2_trunc p12 (value p12 v) r.
Proof. exact (t12_exp2_trunc v). Qed.
Print Assumptions C64_posit12_exp2_partial.
Theorem C64_posit12_exp2_above v : real p12 v -> ((-1 # 2 ^ 25) <= value p12 v < 0)%Q ->
  t12_exp2 v = Ok 1024 /\ (value p12 1024 == 1)%Q /\ exp2_near p12 (value p12 v) 1024 /\ ~ le_exp2 1 (value p12 v) /\ ~ exp2_trunc p12 (value p12 v) 1024.
Proof. exact (t12_exp2_tiny v). Qed.
Print Assumptions C64_posit12_exp2_above.
Theorem C64_posit12_exp2_nan v : real p12 v -> (128 <= value p12 v)%Q -> t12_exp2 v = Ok (exceptional p12).
Proof. exact (t12_exp2_high v). Qed.
Print Assumptions C64_posit12_exp2_nan.
Theorem C64_posit12_exp2_zero v : real p12 v -> (value p12 v <= -143)%Q -> t12_exp2 v = Ok 0.
Proof. exact (t12_exp2_low v). Qed.
Print Assumptions C64_posit12_exp2_zero.
Example C64_posit12_ex : real p12 1300 /\ Qeq_bool (value p12 1300) (37 # 8) = true /\ t12_exp2 1300 = Ok 1570 /\ Qeq_bool (value p12 1570) (49 # 2) = true /\
  real p12 (-1) /\ t12_exp2 (-1) = Ok 1024 /\ real p12 1728 /\ Qeq_bool (value p12 1728) 128 = true /\ t12_exp2 1728 = Ok (exceptional p12) /\
  real p12 (-1736) /\ Qeq_bool (value p12 (-1736)) (-144) = true /\ t12_exp2 (-1736) = Ok 0.
Proof. ex. Qed.

(** C86. The exp2 table of posit12. Full claim: whatever faithful exp2 the machine has, the program writes the shipped
    table. It holds of the entries of NaN, of the numbers up to -2^-22 and of those from 0 to 127. It holds of every entry
    when exp2 rounds to nearest. It is false when exp2 rounds down: there the entry of -2^-40 is the posit below 1. *)
Theorem C86_posit12_exp2_partial ex : exp2_float 8 23 ex -> forall v, pattern p12 v ->
  v = exceptional p12 \/ (value p12 v <= -1 # 2 ^ 22)%Q \/ (0 <= value p12 v /\ value p12 v <= 127)%Q ->
  g_opexp2 p12 ex (v mod 4096) = s12_entry Tbl12.opexp2_rows (v mod 4096).
Proof. exact (gen12_settled ex). Qed.
Print Assumptions C86_posit12_exp2_partial.
Theorem C86_posit12_exp2_nearest ex : exp2_nearest 8 23 ex -> forall i, 0 <= i < 4096 -> g_opexp2 p12 ex i = s12_entry Tbl12.opexp2_rows i.
Proof. exact (gen12_nearest ex). Qed.
Print Assumptions C86_posit12_exp2_nearest.
Theorem C86_nearest_exists : exists ex, exp2_nearest 8 23 ex.
Proof. exact (ex_intro _ ex_near ex_near_nearest). Qed.
Print Assumptions C86_nearest_exists.
Theorem C86_posit12_exp2_refuted : exists ex, exp2_float 8 23 ex /\ exists i, 0 <= i < 4096 /\
  g_opexp2 p12 ex i = Ok 1023 /\ s12_entry Tbl12.opexp2_rows i = Ok 1024.
Proof. exact gen12_floor_refuted. Qed.
Print Assumptions C86_posit12_exp2_refuted.
Example C86_exp2_ex : exp2_float 8 23 ex_floor /\ exp2_nearest 8 23 ex_near /\ pattern p12 1300 /\ Qle_bool 0 (value p12 1300) = true /\ Qle_bool (value p12 1300) 127 = true /\
  s12_entry Tbl12.opexp2_rows (1300 mod 4096) = Ok 1570.
Proof. split; [exact ex_floor_faithful|]. split; [exact ex_near_nearest|]. ex. Qed.
