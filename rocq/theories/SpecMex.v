(** The MATLAB functions on arrays of 8 bit posits. *)
From Coq Require Import ZArith QArith Qabs List Ascii String.
From Verif Require Import Cfg Spec SpecFloat Mex.
Import ListNotations.
Open Scope Z_scope.

(** An array with the elements [xs], stored as real and imaginary parts in turn if it is complex. *)
Definition product (dims : list Z) : Z := fold_right Z.mul 1 dims.
Definition holds (a : mx) (xs : list Z) : Prop :=
  x_data a = map Some xs /\ Z.of_nat (List.length xs) = product (x_dims a) * (if x_cplx a then 2 else 1) /\ Z.of_nat (List.length xs) < 2 ^ 31.
(** The array of the class [cls] with the form of [a] and the elements [zs]. *)
Definition like (a : mx) (cls : xcls) (zs : list Z) : mx := Mx cls (x_dims a) (x_cplx a) (map Some zs).
(** The text [t]. *)
Definition says (s : mx) (t : string) : Prop :=
  x_cls s = XChar /\ x_data s = map (fun ch => Some (Z.of_nat (nat_of_ascii ch))) (list_ascii_of_string t).
(** The memory of an array, with no element written. *)
Definition unwritten (a : mx) : Prop := Forall (fun e => e = None) (x_data a).
Definition int8 (x : Z) : Prop := -128 <= x < 128.
(** [zs] has an element for every element of [xs], or for every two elements of [xs] and [ys] at one place. *)
Definition each (R : Z -> Z -> Prop) (xs zs : list Z) : Prop := Forall2 R xs zs.
Definition each2 (R : Z -> Z -> Z -> Prop) (xs ys zs : list Z) : Prop :=
  List.length ys = List.length xs /\ Forall2 (fun p z => R (fst p) (snd p) z) (combine xs ys) zs.

(** The outcome [z] of an operation on numbers. *)
Definition summed (c : cfg) (x y : Z) (z : Z) : Prop :=
  real c x -> real c y -> faithful c (value c x + value c y) z /\ sign_ok (value c x + value c y) z.
Definition subtracted (c : cfg) (x y : Z) (z : Z) : Prop :=
  real c x -> real c y -> faithful c (value c x - value c y) z /\ sign_ok (value c x - value c y) z.
Definition multiplied (c : cfg) (x y : Z) (z : Z) : Prop :=
  real c x -> real c y -> rounds_tz c (value c x * value c y) z.
Definition divided (c : cfg) (x y : Z) (z : Z) : Prop :=
  real c x -> real c y -> (y <> 0 -> rounds_tz c (value c x / value c y) z) /\
    (y = 0 -> x = 0 -> z = exceptional c) /\ (y = 0 -> x <> 0 -> z = inf_of c (x <? 0)).
Definition inverted (c : cfg) (x z : Z) : Prop :=
  (x = 0 \/ is_inf c x -> z = x) /\ (is_nan c x -> z = x) /\ (real c x -> x <> 0 -> ~ (csp c = WithNanInf /\ (x = 1 \/ x = -1)) -> rounds_tz c (/ value c x) z).

(** The exponent and fraction bits of the float format in the elements of a class; 16 bit integers stand for halves. *)
Definition format (cls : xcls) : option (Z * Z) :=
  match cls with XDouble => Some (11, 52) | XSingle => Some (8, 23) | XInt16 | XUint16 => Some (5, 10) | _ => None end.
(** The float [b] is the number, infinity or NaN of the posit [x]. *)
Definition same_as (c : cfg) (eb fb x b : Z) : Prop := 0 <= b < 2 ^ (eb + fb + 1) /\ same_ext (ieee_val eb fb b) (ext_of c x).
(** The posit [z] for the float [b]: the number cut to a posit, but 0 for a number that the [cF c] bits of the fraction cannot hold
    below the least normal number; the infinity; for a quiet NaN, the exceptional value. *)
Definition cut_from (c : cfg) (eb fb b z : Z) : Prop :=
  match ieee_val eb fb b with
  | FinVal q => ((Qabs q < pow2 (2 - 2 ^ (eb - 1) - cF c))%Q -> z = 0) /\ ((pow2 (2 - 2 ^ (eb - 1) - cF c) <= Qabs q)%Q -> rounds_tz c q z)
  | InfVal s => z = inf_of c s
  | NaNVal => Z.testbit b (fb - 1) = true -> z = exceptional c
  end.

(** Arrays for the examples. *)
Definition ex_a : mx := Mx XInt8 [1; 3] false [Some 64; Some 96; Some (-64)].
Definition ex_b : mx := Mx XInt8 [3; 1] false [Some 64; Some 64; Some 0].
Definition ex_op (ch : ascii) : mx := Mx XChar [1; 1] false [Some (Z.of_nat (nat_of_ascii ch))].
Definition ex_inv : mx := Mx XChar [1; 3] false [Some 105; Some 110; Some 118].
