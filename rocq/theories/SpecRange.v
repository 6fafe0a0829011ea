(** Half precision numbers in a range. *)
From Coq Require Import ZArith QArith List.
From Verif Require Import Spec SpecFloat.
Open Scope Z_scope.

(** The half [p] lies within the limits, which are doubles. *)
Definition half_within (mi ma p : Z) : Prop :=
  0 <= p < 2 ^ 16 /\ ext_le (ieee_val 11 52 mi) (ieee_val 5 10 p) /\ ext_le (ieee_val 5 10 p) (ieee_val 11 52 ma).
(** [p] comes before [q]: its number is less, or both have one number and the pattern is less. *)
Definition half_before (p q : Z) : Prop :=
  ext_le (ieee_val 5 10 p) (ieee_val 5 10 q) /\ (ext_le (ieee_val 5 10 q) (ieee_val 5 10 p) -> p < q).
(** [p] is a half with the value [x]. *)
Definition is_half (p : Z) (x : Q) : Prop := 0 <= p < 2 ^ 16 /\ exists y, ieee_val 5 10 p = FinVal y /\ (y == x)%Q.
(** [x] and [y] are consecutive numbers of the half format. *)
Definition half_next (x y : Q) : Prop :=
  (x < y)%Q /\ (exists p, is_half p x) /\ (exists q, is_half q y) /\ forall r z, is_half r z -> ~ (x < z /\ z < y)%Q.
