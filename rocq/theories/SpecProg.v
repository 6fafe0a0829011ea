(** The values a program can compute from a posit type. *)
From Coq Require Import ZArith List.
From Verif Require Import Res Traits Cfg Spec SpecFloat Posit Posit2.
Import ListNotations.
Open Scope Z_scope.

(** Everything a program can make: named constants, conversions, and operations on what it made before. Left out are
    the two ways out of the format that C09 and C28 report, which exist when totalbits is smaller than the holder:
    negation (also in subtraction, abs and sqrt) of the pattern 10..0, and next() of the largest number. *)
Inductive computed (c : cfg) : Z -> Prop :=
| k_const v : In v [p_zero c; p_one c; p_mone c; p_two c; p_max c; p_min c; p_lowest c; p_nan c; p_inf c; p_pinf c; p_ninf c] -> computed c v
| k_int i r : p_of_int c i = Ok r -> computed c r
| k_float t b r : p_of_float c t b = Ok r -> computed c r
| k_convert c0 v r : valid_cfg c0 -> exp_ok c0 -> same_unpacked c0 c -> computed c0 v -> p_convert c0 c v = Ok r -> computed c r
| k_add a b r : computed c a -> computed c b -> p_add c a b = Ok r -> computed c r
| k_sub a b r : computed c a -> computed c b -> cN c = cH c \/ b <> exceptional c -> p_sub c a b = Ok r -> computed c r
| k_mul a b r : computed c a -> computed c b -> p_mul c a b = Ok r -> computed c r
| k_div a b r : computed c a -> computed c b -> p_div c a b = Ok r -> computed c r
| k_fma a b d r : computed c a -> computed c b -> computed c d -> p_fma c a b d = Ok r -> computed c r
| k_dot l r : Forall (fun p => computed c (fst p) /\ computed c (snd p)) l -> p_dot c l = Ok r -> computed c r
| k_mul_add a b d e r : computed c a -> computed c b -> computed c d -> computed c e -> pm_add c (a, b) (d, e) = Ok r -> computed c r
| k_mul_sub a b d e r : computed c a -> computed c b -> computed c d -> computed c e -> pm_sub c (a, b) (d, e) = Ok r -> computed c r
| k_neg a r : computed c a -> cN c = cH c \/ a <> exceptional c -> p_neg c a = Ok r -> computed c r
| k_abs a r : computed c a -> cN c = cH c \/ a <> exceptional c -> p_abs c a = Ok r -> computed c r
| k_sqrt a r : computed c a -> cN c = cH c \/ a <> exceptional c -> p_sqrt c a = Ok r -> computed c r
| k_inv a r : computed c a -> p_inv c a = Ok r -> computed c r
| k_half a r : computed c a -> p_half c a = Ok r -> computed c r
| k_twice a r : computed c a -> p_twice c a = Ok r -> computed c r
| k_next a r : computed c a -> cN c = cH c \/ a <> maxreal c -> p_next c a = Ok r -> computed c r
| k_prev a r : computed c a -> p_prev c a = Ok r -> computed c r
| k_min a b : computed c a -> computed c b -> computed c (p_stdmin c a b)
| k_max a b : computed c a -> computed c b -> computed c (p_stdmax c a b).

(** The same from finite inputs with operations that have a finite result for all finite operands: no division by zero,
    no inv, twice or next. *)
Inductive finite (c : cfg) : Z -> Prop :=
| f_const v : In v [p_zero c; p_one c; p_mone c; p_max c; p_min c; p_lowest c] -> finite c v
| f_int i r : p_of_int c i = Ok r -> finite c r
| f_float eb fb den b q r : fmt_ok eb fb -> et_holds c eb -> 0 <= b < 2 ^ (eb + fb + 1) -> ieee_val eb fb b = FinVal q ->
    p_of_float c (any_floattrait eb fb den) b = Ok r -> finite c r
| f_convert c0 v r : valid_cfg c0 -> exp_ok c0 -> same_unpacked c0 c -> finite c0 v -> p_convert c0 c v = Ok r -> finite c r
| f_add a b r : finite c a -> finite c b -> p_add c a b = Ok r -> finite c r
| f_sub a b r : finite c a -> finite c b -> p_sub c a b = Ok r -> finite c r
| f_mul a b r : finite c a -> finite c b -> p_mul c a b = Ok r -> finite c r
| f_div a b r : finite c a -> finite c b -> b <> 0 -> p_div c a b = Ok r -> finite c r
| f_fma a b d r : finite c a -> finite c b -> finite c d -> p_fma c a b d = Ok r -> finite c r
| f_dot l r : Forall (fun p => finite c (fst p) /\ finite c (snd p)) l -> p_dot c l = Ok r -> finite c r
| f_mul_add a b d e r : finite c a -> finite c b -> finite c d -> finite c e -> pm_add c (a, b) (d, e) = Ok r -> finite c r
| f_mul_sub a b d e r : finite c a -> finite c b -> finite c d -> finite c e -> pm_sub c (a, b) (d, e) = Ok r -> finite c r
| f_neg a r : finite c a -> p_neg c a = Ok r -> finite c r
| f_abs a r : finite c a -> p_abs c a = Ok r -> finite c r
| f_half a r : finite c a -> p_half c a = Ok r -> finite c r
| f_prev a r : finite c a -> p_prev c a = Ok r -> finite c r
| f_min a b : finite c a -> finite c b -> finite c (p_stdmin c a b)
| f_max a b : finite c a -> finite c b -> finite c (p_stdmax c a b).

(** Programs as expressions over posit values, and the value (or undefined behaviour) of running one. *)
Inductive expr : Set :=
| Lit (v : Z) | OfInt (i : Z)
| Add (a b : expr) | Sub (a b : expr) | Mul (a b : expr) | Div (a b : expr) | Min (a b : expr) | Max (a b : expr)
| Neg (a : expr) | Abs (a : expr) | Sqrt (a : expr) | Inv (a : expr) | Half (a : expr) | Twice (a : expr) | Next (a : expr) | Prev (a : expr).
Fixpoint eval (c : cfg) (e : expr) : res Z :=
  let two f a b := (let! x := eval c a in let! y := eval c b in f x y) in
  match e with
  | Lit v => Ok v
  | OfInt i => p_of_int c i
  | Add a b => two (p_add c) a b
  | Sub a b => two (p_sub c) a b
  | Mul a b => two (p_mul c) a b
  | Div a b => two (p_div c) a b
  | Min a b => two (fun x y => Ok (p_stdmin c x y)) a b
  | Max a b => two (fun x y => Ok (p_stdmax c x y)) a b
  | Neg a => let! x := eval c a in p_neg c x
  | Abs a => let! x := eval c a in p_abs c x
  | Sqrt a => let! x := eval c a in p_sqrt c x
  | Inv a => let! x := eval c a in p_inv c x
  | Half a => let! x := eval c a in p_half c x
  | Twice a => let! x := eval c a in p_twice c x
  | Next a => let! x := eval c a in p_next c x
  | Prev a => let! x := eval c a in p_prev c x
  end.
(** The literals are patterns of the format (NaN and infinities included), the integers not the most negative one. *)
Fixpoint literals_ok (c : cfg) (e : expr) : Prop :=
  match e with
  | Lit v => pattern c v
  | OfInt i => - 2 ^ 31 < i < 2 ^ 31
  | Add a b | Sub a b | Mul a b | Div a b | Min a b | Max a b => literals_ok c a /\ literals_ok c b
  | Neg a | Abs a | Sqrt a | Inv a | Half a | Twice a | Next a | Prev a => literals_ok c a
  end.
(** The literals are numbers, no division is by zero, and inv, twice and next, which can leave the numbers, are not used. *)
Fixpoint tame (c : cfg) (e : expr) : Prop :=
  match e with
  | Lit v => real c v
  | OfInt i => - 2 ^ 31 < i < 2 ^ 31
  | Add a b | Sub a b | Mul a b | Min a b | Max a b => tame c a /\ tame c b
  | Div a b => tame c a /\ tame c b /\ eval c b <> Ok 0
  | Neg a | Abs a | Sqrt a | Half a | Prev a => tame c a
  | Inv _ | Twice _ | Next _ => False
  end.
