(** Conversion to half precision, as the MATLAB function of matlab/halfprecision documents it: a half has 5 exponent and
    10 fraction bits, rounding is to nearest and a number halfway between two halves goes to the one further from
    zero. *)
From Coq Require Import ZArith QArith Qabs List.
From Verif Require Import Spec SpecFloat.
Import ListNotations.
Open Scope Z_scope.

(** [r] is the half nearest to [q], ties away from zero. From 65520, which is halfway between the largest half 65504 and
    65536, numbers become infinite. *)
Definition half_away (q : Q) (r : Z) : Prop :=
  match ieee_val 5 10 r with
  | FinVal y =>
    (Qabs q < 65520)%Q /\
    forall b z, 0 <= b < 2 ^ 16 -> ieee_val 5 10 b = FinVal z ->
      (Qabs (y - q) <= Qabs (z - q))%Q /\ ((Qabs (y - q) == Qabs (z - q))%Q -> (Qabs z <= Qabs y)%Q)
  | InfVal s => (65520 <= Qabs q)%Q /\ (s = true <-> (q < 0)%Q)
  | NaNVal => False
  end.
(** The half for an extended number. *)
Definition half_for (e : ieee) (r : Z) : Prop :=
  0 <= r < 2 ^ 16 /\
  match e with FinVal q => half_away q r | InfVal s => ieee_val 5 10 r = InfVal s | NaNVal => ieee_val 5 10 r = NaNVal end.
(** The half for the float [x] with eb exponent and fb fraction bits; unless it is NaN, its sign bit is that of [x]. *)
Definition half_of (eb fb x r : Z) : Prop :=
  half_for (ieee_val eb fb x) r /\ (ieee_val eb fb x <> NaNVal -> r / 2 ^ 15 = x / 2 ^ (eb + fb)).
(** The half [h] and the float [x] are the same number, zeros with the same sign. *)
Definition same_number (eb fb h x : Z) : Prop :=
  0 <= x < 2 ^ (eb + fb + 1) /\ same_ext (ieee_val eb fb x) (ieee_val 5 10 h) /\
  (ieee_val 5 10 h <> NaNVal -> x / 2 ^ (eb + fb) = h / 2 ^ 15).

(** Doubles as 32 bit words in memory, lower or higher word first. *)
Definition words_of (little : bool) (d : Z) : list Z :=
  if little then [d mod 2 ^ 32; d / 2 ^ 32] else [d / 2 ^ 32; d mod 2 ^ 32].
Definition in_words (little : bool) (ds : list Z) : list Z := flat_map (words_of little) ds.

(** A routine changed the first elements of the array [old] to [new], related to [src] by [rel], and no others. *)
Definition converted (rel : Z -> Z -> Prop) (src old new : list Z) : Prop :=
  exists out, new = out ++ skipn (length src) old /\ Forall2 rel src out.
(** The imaginary parts, absent or related element by element. *)
Definition opt_rel (rel : Z -> Z -> Prop) (a b : option (list Z)) : Prop :=
  match a, b with None, None => True | Some x, Some y => Forall2 rel x y | _, _ => False end.
(** Every imaginary part satisfies [P]; there is one for each real part, or none at all. *)
Definition opt_all (P : Z -> Prop) (im : option (list Z)) : Prop := match im with Some l => Forall P l | None => True end.
Definition same_length (re : list Z) (im : option (list Z)) : Prop := match im with Some l => length l = length re | None => True end.
(** A NaN is told from an infinity by the fraction bits in the upper word alone. *)
Definition upper_tells (d : Z) : Prop := ieee_val 11 52 d <> NaNVal \/ (d / 2 ^ 32) mod 2 ^ 20 <> 0.
