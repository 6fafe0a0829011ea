(** The bit string of a posit, written down field by field. *)
From Coq Require Import ZArith List Bool.
From Verif Require Import Cfg Spec.
Import ListNotations.
Open Scope Z_scope.

(** The run that stands for the regime [k], with the bit that ends it: 10, 110, 1110, ... for 0, 1, 2, ... and 01, 001, ... for -1, -2, ... *)
Definition regime_bits (k : Z) : list bool :=
  if 0 <=? k then repeat true (Z.to_nat (k + 1)) ++ [false] else repeat false (Z.to_nat (- k)) ++ [true].

(** All bits of the posit with the pattern [v], sign first. *)
Definition all_bits (c : cfg) (v : Z) : list bool := bits_of (Z.to_nat (cN c)) v.

(** [z] zero bits, [z] one bits. *)
Definition zeros (z : Z) : list bool := repeat false (Z.to_nat z).
Definition ones (z : Z) : list bool := repeat true (Z.to_nat z).
