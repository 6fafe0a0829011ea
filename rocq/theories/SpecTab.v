(** Specification of the base 2 exponential, of its truncation to a posit, and of lane by lane
    operations. *)
From Coq Require Import ZArith QArith List.
From Verif Require Import Res Cfg Spec.
Open Scope Z_scope.

(** For [y] > 0: y <= 2^x, that is y^d <= 2^n where x = n/d in lowest terms. *)
Definition le_exp2 (y x : Q) : Prop := (Qpower y (Zpos (Qden (Qred x))) <= pow2 (Qnum (Qred x)))%Q.

(** [v] is the posit of largest value not above 2^x, or the smallest positive posit when 2^x lies below
    all of them. *)
Definition exp2_trunc (c : cfg) (x : Q) (v : Z) : Prop :=
  real c v /\ (0 < value c v)%Q /\
  (forall w, real c w -> (0 < value c w)%Q -> le_exp2 (value c w) x -> (value c w <= value c v)%Q) /\
  (le_exp2 (value c v) x \/
   (forall w, real c w -> (0 < value c w)%Q -> (value c v <= value c w)%Q)).

(** Vectors of bytes, read as posit8 patterns lane by lane: [r] holds the results of [f]. *)
Definition byte (x : Z) : Prop := 0 <= x < 256.
Definition int8 (x : Z) : Z := if x <? 128 then x else x - 256.
Definition lanewise1 (f : Z -> res Z) (a r : list Z) : Prop :=
  length r = length a /\
  forall i, (i < length a)%nat -> byte (nth i r 0) /\ f (int8 (nth i a 0)) = Ok (int8 (nth i r 0)).
Definition lanewise2 (f : Z -> Z -> res Z) (a b r : list Z) : Prop :=
  length r = length a /\
  forall i, (i < length a)%nat -> byte (nth i r 0) /\ f (int8 (nth i a 0)) (int8 (nth i b 0)) = Ok (int8 (nth i r 0)).
