(** The function template gauss2 of include/simdposit8.hpp, for the types that have the operations it uses. *)
From Coq Require Import ZArith List.
From Verif Require Import Res CInt Cfg Tab.
Import ListNotations.
Open Scope Z_scope.

(** simdposit8.hpp 150-154 with T = posit8: exp2(-half(square((x-mu)/sigma))). *)
Definition t8_gauss2 (x mu sigma : Z) : res Z :=
  let! d := t8_sub x mu in let! q := t8_div d sigma in let! s := t8_square q in let! h := t8_half s in
  t8_exp2 (t8_neg h).
(** simdposit8.hpp 150-154 with T = posit12. *)
Definition t12_gauss2 (x mu sigma : Z) : res Z :=
  let! d := t12_sub x mu in let! q := t12_div d sigma in let! s := t12_square q in let! h := t12_half s in
  t12_exp2 (t12_neg h).
(** simdposit8.hpp 150-154 with T = simd_posit8_32. *)
Definition simd_gauss2 (x mu sigma : list Z) : res (list Z) :=
  let! d := simd_sub x mu in let! q := simd_div d sigma in let! s := simd_square q in let! h := simd_half s in
  simd_exp2 (simd_neg h).
