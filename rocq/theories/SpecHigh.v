(** The sum of products of integers, with all intermediate results within a bound. *)
From Coq Require Import ZArith List.
Import ListNotations.
Open Scope Z_scope.

Fixpoint dot_int (l : list (Z * Z)) : Z :=
  match l with [] => 0 | (i, j) :: l' => i * j + dot_int l' end.
(** Every product and every partial sum, starting from [s], is below [m] in magnitude. *)
Fixpoint dot_within (m s : Z) (l : list (Z * Z)) : Prop :=
  match l with [] => True | (i, j) :: l' => Z.abs (i * j) < m /\ Z.abs (s + i * j) < m /\ dot_within m (s + i * j) l' end.
