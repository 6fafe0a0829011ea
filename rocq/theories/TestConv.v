(** The test case "Conversions" of the posit tests. *)
From Coq Require Import ZArith Bool.
From Verif Require Import Res CInt Traits Unpacked Cfg Posit Soft.
Open Scope Z_scope.
Open Scope res_scope.

(** tests/testsposit.hpp 35-71, tests/testposit.cpp 36-70: one round of the loop for the number with pattern [f] of the
    format with [eb] exponent and [fb] fraction bits (double in the code), as the four conditions required at its end:
    f == fuf, fp == fup, fupu == fu, fupuf == f. The comparison of floats is [f_eq], that of their values. The output
    on failure is left out. *)
Definition conv_test (c : cfg) (eb fb : Z) (den : bool) (f : Z) : res (bool * bool * bool * bool) :=
  let t := any_floattrait eb fb den in
  let! fu := u_unpack_xfloati (cF c) (c_E c) t f in
  let! fp := p_of_float c t f in
  let! fuf := u_pack_xfloati (cF c) (c_E c) t fu in
  let! fup := pack_posit c fu in
  let! fupu := unpack c fup in
  let! fupuf := u_pack_xfloati (cF c) (c_E c) t fupu in
  Ok (f_eq eb fb f fuf, p_eq c fp fup, u_eq fupu fu, f_eq eb fb fupuf f).

(** tests/testposit.cpp 14: the format X1 that the test is run with. *)
Definition p28_5 : cfg := Cfg 32 28 5 32 WithNan.
