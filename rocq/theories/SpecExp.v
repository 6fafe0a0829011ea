(** What rounding 2^x to the nearest float means. *)
From Coq Require Import ZArith QArith.
From Verif Require Import Cfg Spec SpecTab SpecFloat SpecAny SpecGen.
Open Scope Z_scope.

(** [ex] is a faithful exponential that returns a nearest float: seen from the result y, 2^x lies on y's side of the
    midpoint between y and every other float. It overflows to infinity exactly when 2^x reaches the midpoint between
    the largest float and the power of two after it. *)
Record exp2_nearest (eb fb : Z) (ex : Z -> Z) : Prop := {
  en_faithful : exp2_float eb fb ex;
  en_near : forall b x y w, 0 <= b < 2 ^ (eb + fb + 1) -> ieee_val eb fb b = FinVal x -> ieee_val eb fb (ex b) = FinVal y -> is_float eb fb w -> (0 <= w)%Q ->
    ((w < y)%Q -> le_exp2 ((w + y) / 2) x) /\ ((y < w)%Q -> ge_exp2 ((w + y) / 2) x);
  en_over : forall b x, 0 <= b < 2 ^ (eb + fb + 1) -> ieee_val eb fb b = FinVal x ->
    (ieee_val eb fb (ex b) = InfVal false <-> le_exp2 (pow2 (2 ^ (eb - 1)) - pow2 (2 ^ (eb - 1) - fb - 2)) x)
}.
