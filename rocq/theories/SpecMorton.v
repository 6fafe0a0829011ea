(** The Morton order of a square array. *)
From Coq Require Import ZArith List.
Open Scope Z_scope.

(** The binary digits of [i] are those of [row] and [col] in turn, those of [row] before those of [col]. *)
Definition interleaved (row col i : Z) : Prop :=
  forall k, 0 <= k -> Z.testbit i (2 * k + 1) = Z.testbit row k /\ Z.testbit i (2 * k) = Z.testbit col k.
(** The number of an element in an array of 2^n rows, counting along the columns from 1, as MATLAB does. *)
Definition element (n : nat) (row col : Z) : Z := 2 ^ Z.of_nat n * col + row + 1.
(** [l] goes through the elements of an array of 2^n rows and columns in Morton order. *)
Definition morton_order (n : nat) (l : list Z) : Prop :=
  Z.of_nat (length l) = 4 ^ Z.of_nat n /\
  forall i, 0 <= i < 4 ^ Z.of_nat n -> exists row col, 0 <= row < 2 ^ Z.of_nat n /\ 0 <= col < 2 ^ Z.of_nat n /\
    interleaved row col i /\ nth_error l (Z.to_nat i) = Some (element n row col).
(** [l] goes through all elements, each once. *)
Definition goes_through (n : nat) (l : list Z) : Prop :=
  NoDup l /\ forall e, In e l <-> exists row col, 0 <= row < 2 ^ Z.of_nat n /\ 0 <= col < 2 ^ Z.of_nat n /\ e = element n row col.
