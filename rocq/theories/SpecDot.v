(** What the dot product computes: the exact sum of products, and the sum of their magnitudes. *)
From Coq Require Import ZArith QArith Qabs List.
From Verif Require Import Cfg Spec.
Open Scope Z_scope.

(** Sum of x*y, and of |x*y|, over the pairs of posits (x, y) of the list. *)
Definition dot_exact (c : cfg) (l : list (Z * Z)) : Q :=
  fold_right (fun p s => value c (fst p) * value c (snd p) + s)%Q 0%Q l.
Definition dot_magnitude (c : cfg) (l : list (Z * Z)) : Q :=
  fold_right (fun p s => Qabs (value c (fst p) * value c (snd p)) + s)%Q 0%Q l.

(** All elements are numbers (neither NaN nor infinite). *)
Definition dot_real (c : cfg) (l : list (Z * Z)) : Prop :=
  Forall (fun p => real c (fst p) /\ real c (snd p)) l.
