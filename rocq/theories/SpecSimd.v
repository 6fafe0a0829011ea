(** Vectors of numbers, for the classes of include/simd. *)
From Coq Require Import ZArith QArith List.
From Verif Require Import Spec SpecFloat.
Import ListNotations.
Open Scope Z_scope.

(** Element types: signed and unsigned integers of w bits, and floats with eb exponent and fb fraction bits, which are
    given by their bits. *)
Inductive elem : Set := ESigned (w : Z) | EUnsigned (w : Z) | EFloat (eb fb : Z).
Definition elem_ok (e : elem) (z : Z) : Prop :=
  match e with
  | ESigned w => - 2 ^ (w - 1) <= z < 2 ^ (w - 1)
  | EUnsigned w => 0 <= z < 2 ^ w
  | EFloat eb fb => 0 <= z < 2 ^ (1 + eb + fb)
  end.
(** A vector of n elements. *)
Definition vector (e : elem) (n : nat) (xs : list Z) : Prop := length xs = n /\ Forall (elem_ok e) xs.

(** The order of the elements. A NaN is neither below nor above anything. *)
Definition less (e : elem) (x y : Z) : Prop :=
  match e with
  | EFloat eb fb => ext_le (ieee_val eb fb x) (ieee_val eb fb y) /\ ~ ext_le (ieee_val eb fb y) (ieee_val eb fb x)
  | _ => x < y
  end.
Definition not_nan (e : elem) (x : Z) : Prop :=
  match e with EFloat eb fb => ieee_val eb fb x <> NaNVal | _ => True end.

(** Among the pairs of [h], an element and the place it comes from, (v, i) is the first that no other exceeds. *)
Definition first_max (e : elem) (h : list (Z * Z)) (v i : Z) : Prop :=
  exists before after, h = before ++ (v, i) :: after /\
  (forall w j, In (w, j) before -> less e w v) /\ (forall w j, In (w, j) h -> ~ less e v w).

(** Memory gives the byte at each address. It holds the number z of k bytes at address a, least significant byte first. *)
Definition holds (m : Z -> Z) (a k z : Z) : Prop := forall i, 0 <= i < k -> m (a + i) = (z / 2 ^ (8 * i)) mod 256.

(** The elements and indices that lane j of pairs of an element vector and an index vector holds, one after the other. *)
Definition lane_history (j : nat) (vs : list (list Z * list Z)) : list (Z * Z) :=
  map (fun p => (nth j (fst p) 0, nth j (snd p) 0)) vs.
