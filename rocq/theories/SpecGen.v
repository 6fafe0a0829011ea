(** What a base 2 exponential on floats promises, and the posits next to 2^x. *)
From Coq Require Import ZArith QArith.
From Coq Require Qabs.
From Verif Require Import Cfg Spec SpecTab SpecFloat SpecAny.
From Verif Require Res.
Open Scope Z_scope.

(** For [y] > 0: 2^x <= y, that is 2^n <= y^d where x = n/d in lowest terms. *)
Definition ge_exp2 (y x : Q) : Prop := (pow2 (Qnum (Qred x)) <= Qpower y (Zpos (Qden (Qred x))))%Q.

(** [ex] is a faithful exponential on the float format: the result is a float, and no float lies strictly
    between the result and 2^x. Round to nearest, and every directed mode, is faithful. Infinities and NaN have
    their usual images. *)
Record exp2_float (eb fb : Z) (ex : Z -> Z) : Prop := {
  e2_range : forall b, 0 <= b < 2 ^ (eb + fb + 1) -> 0 <= ex b < 2 ^ (eb + fb + 1);
  e2_nan : forall b, 0 <= b < 2 ^ (eb + fb + 1) -> ieee_val eb fb b = NaNVal -> ieee_val eb fb (ex b) = NaNVal /\ quiet eb fb (ex b);
  e2_pinf : forall b, 0 <= b < 2 ^ (eb + fb + 1) -> ieee_val eb fb b = InfVal false -> ieee_val eb fb (ex b) = InfVal false;
  e2_ninf : forall b, 0 <= b < 2 ^ (eb + fb + 1) -> ieee_val eb fb b = InfVal true -> same_ext (ieee_val eb fb (ex b)) (FinVal 0);
  e2_pos : forall b x, 0 <= b < 2 ^ (eb + fb + 1) -> ieee_val eb fb b = FinVal x -> ext_le (FinVal 0) (ieee_val eb fb (ex b));
  e2_below : forall b x w, 0 <= b < 2 ^ (eb + fb + 1) -> ieee_val eb fb b = FinVal x -> is_float eb fb w -> (0 < w)%Q -> le_exp2 w x ->
    ext_le (FinVal w) (ieee_val eb fb (ex b));
  e2_above : forall b x w, 0 <= b < 2 ^ (eb + fb + 1) -> ieee_val eb fb b = FinVal x -> is_float eb fb w -> (0 < w)%Q -> ge_exp2 w x ->
    ext_le (ieee_val eb fb (ex b)) (FinVal w)
}.

(** [v] is a positive posit and no positive posit lies strictly between it and 2^x: 2^x itself when that is a
    posit, one of its two neighbours, or the end of the range. *)
Definition exp2_near (c : cfg) (x : Q) (v : Z) : Prop :=
  real c v /\ (0 < value c v)%Q /\
  (forall w, real c w -> (0 < value c w)%Q -> (value c w < value c v)%Q -> ~ ge_exp2 (value c w) x) /\
  (forall w, real c w -> (0 < value c w)%Q -> (value c v < value c w)%Q -> ~ le_exp2 (value c w) x).

(** [f] makes posits out of the bits of floats: 0 out of the zeros and out of the subnormal numbers none of whose
    bits FT keeps, truncation of every other number, and the exceptional value out of infinities and NaN. *)
Definition reads_floats (c : cfg) (eb fb : Z) (f : Z -> Res.res Z) : Prop := forall b, 0 <= b < 2 ^ (eb + fb + 1) ->
  match ieee_val eb fb b with
  | FinVal q => let kept := pow2 (2 - 2 ^ (eb - 1) - cF c) in
      ((Qabs.Qabs q < kept)%Q -> f b = Res.Ok 0) /\
      ((kept <= Qabs.Qabs q)%Q -> exists r, f b = Res.Ok r /\ rounds_tz c q r)
  | InfVal _ => f b = Res.Ok (exceptional c)
  | NaNVal => f b = Res.Ok (exceptional c)
  end.
(** [f] makes posits out of the values of int, except the least one. *)
Definition reads_ints (c : cfg) (f : Z -> Res.res Z) : Prop := forall i, - 2 ^ 31 < i < 2 ^ 31 -> exists r, f i = Res.Ok r /\ rounds_tz c (inject_Z i) r.
