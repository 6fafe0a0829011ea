(** The arithmetic of the C++ types float and double, as the headers use it: IEEE-754 operations on bit
    patterns. [rnd] is the rounding of an exact result to the format; [rne] is the default mode of the
    supported platforms, to nearest, ties to even.

    The sign of a zero result is not modelled (it is that of [rnd 0]): every conversion of the headers
    reads both zeros alike. A NaN result is the pattern with the fraction 10..0. *)
From Coq Require Import ZArith QArith Qround Bool.
From Verif Require Import Spec.
Open Scope Z_scope.

(** Binary exponent of a positive number. *)
Definition qexp (q : Q) : Z :=
  let n := Qnum q in
  let d := Zpos (Qden q) in
  let e := Z.log2 n - Z.log2 d in
  if n * 2 ^ Z.max 0 (- e) <? d * 2 ^ Z.max 0 e then e - 1 else e.

(** Nearest integer, ties to even. *)
Definition rint (x : Q) : Z :=
  let f := Qfloor x in
  match ((x - inject_Z f) ?= 1 # 2)%Q with
  | Lt => f
  | Gt => f + 1
  | Eq => if Z.even f then f else f + 1
  end.

(** Pattern of the positive number [q] rounded to nearest even: [k] is its exponent, or the least one. *)
Definition rne_mag (eb fb : Z) (q : Q) : Z :=
  let emin := 2 - 2 ^ (eb - 1) in
  let k := Z.max (qexp q) emin in
  Z.min ((k - emin) * 2 ^ fb + rint (q * pow2 (fb - k))) ((2 ^ eb - 1) * 2 ^ fb).

Definition rne (eb fb : Z) (q : Q) : Z :=
  match Qnum q with
  | Z0 => 0
  | Zpos _ => rne_mag eb fb q
  | Zneg _ => rne_mag eb fb (- q) + 2 ^ (eb + fb)
  end.

Definition f_inf (eb fb : Z) (neg : bool) : Z := (2 ^ eb - 1) * 2 ^ fb + (if neg then 2 ^ (eb + fb) else 0).
Definition f_nan (eb fb : Z) : Z := (2 ^ eb - 1) * 2 ^ fb + 2 ^ (fb - 1).
Definition f_neg (eb fb b : Z) : bool := 2 ^ (eb + fb) <=? b.
Definition f_isz (x : Q) : bool := Qeq_bool x 0.

Definition f_add (eb fb : Z) (rnd : Q -> Z) (a b : Z) : Z :=
  match ieee_val eb fb a, ieee_val eb fb b with
  | FinVal x, FinVal y => rnd (x + y)%Q
  | NaNVal, _ | _, NaNVal => f_nan eb fb
  | InfVal s, InfVal s' => if Bool.eqb s s' then a else f_nan eb fb
  | InfVal _, FinVal _ => a
  | FinVal _, InfVal _ => b
  end.

Definition f_mul (eb fb : Z) (rnd : Q -> Z) (a b : Z) : Z :=
  let s := xorb (f_neg eb fb a) (f_neg eb fb b) in
  match ieee_val eb fb a, ieee_val eb fb b with
  | FinVal x, FinVal y => rnd (x * y)%Q
  | NaNVal, _ | _, NaNVal => f_nan eb fb
  | InfVal _, InfVal _ => f_inf eb fb s
  | InfVal _, FinVal x | FinVal x, InfVal _ => if f_isz x then f_nan eb fb else f_inf eb fb s
  end.

Definition f_div (eb fb : Z) (rnd : Q -> Z) (a b : Z) : Z :=
  let s := xorb (f_neg eb fb a) (f_neg eb fb b) in
  match ieee_val eb fb a, ieee_val eb fb b with
  | FinVal x, FinVal y =>
    if f_isz y then (if f_isz x then f_nan eb fb else f_inf eb fb s) else rnd (x / y)%Q
  | NaNVal, _ | _, NaNVal => f_nan eb fb
  | InfVal _, InfVal _ => f_nan eb fb
  | InfVal _, FinVal _ => f_inf eb fb s
  | FinVal _, InfVal _ => rnd 0%Q
  end.

(** Conversion of a float to a wider format (float to double). *)
Definition f_widen (eb fb eb' fb' : Z) (rnd' : Q -> Z) (b : Z) : Z :=
  match ieee_val eb fb b with
  | FinVal x => rnd' x
  | InfVal s => f_inf eb' fb' s
  | NaNVal => f_nan eb' fb'
  end.
