(** include/softfloat.hpp: the wrappers softfloat16 and softfloat32 of the SoftFloat library.

    The library's functions are taken to be the IEEE-754 operations of [FloatOps], rounded by [rnd] of the format of the
    result; they are trusted. A number is its bit pattern [value.v]. The sign of zero results and of NaNs is not
    modelled, as in [FloatOps], except where a wrapper changes it itself. Not modelled: rem, sqrt, iostream output and the
    default constructor, which leaves the number uninitialised. *)
From Coq Require Import ZArith QArith Bool.
From Verif Require Import Res CInt Traits Spec FloatOps Asimd.
Open Scope Z_scope.

(** softfloat.hpp 63-120 and 122-178. *)
Inductive sfmt : Set := S16 | S32.
Definition sf_eb (s : sfmt) : Z := match s with S16 => 5 | S32 => 8 end.
Definition sf_fb (s : sfmt) : Z := match s with S16 => 10 | S32 => 23 end.
Definition sf_w (s : sfmt) : Z := match s with S16 => 16 | S32 => 32 end.
(** The library's comparisons f16_eq, f16_le; f16_lt is [f_lt]. *)
Definition f_le (eb fb a b : Z) : bool :=
  match ieee_val eb fb a, ieee_val eb fb b with
  | NaNVal, _ | _, NaNVal => false
  | InfVal true, _ | _, InfVal false => true
  | FinVal x, FinVal y => Qle_bool x y
  | _, _ => false
  end.
Definition f_eq (eb fb a b : Z) : bool :=
  match ieee_val eb fb a, ieee_val eb fb b with
  | FinVal x, FinVal y => Qeq_bool x y
  | InfVal s, InfVal s' => Bool.eqb s s'
  | _, _ => false
  end.

Section rnd.
(** Rounding to a format of exponent and fraction bits. *)
Variable rnd : Z -> Z -> Q -> Z.
(** Conversion between formats, f32_to_f16 and the like. *)
Definition f_conv (eb fb eb' fb' : Z) (b : Z) : Z := f_widen eb fb eb' fb' (rnd eb' fb') b.

(** Constructors, softfloat.hpp 68-71 and 127-130: uint32_t and int32_t, float, double. *)
Definition sf_of_int (s : sfmt) (i : Z) : Z := rnd (sf_eb s) (sf_fb s) (inject_Z i).
Definition sf_of_float (s : sfmt) (b : Z) : Z := match s with S16 => f_conv 8 23 5 10 b | S32 => b end.
Definition sf_of_double (s : sfmt) (b : Z) : Z := f_conv 11 52 (sf_eb s) (sf_fb s) b.
(** Lines 73 and 131: from the library's type of the other format. *)
Definition sf_of_other (s : sfmt) (b : Z) : Z := match s with S16 => f_conv 8 23 5 10 b | S32 => f_conv 5 10 8 23 b end.
(** Lines 76-77 and 135-136. *)
Definition sf_to_float (s : sfmt) (v : Z) : Z := match s with S16 => f_conv 5 10 8 23 v | S32 => v end.
Definition sf_to_double (s : sfmt) (v : Z) : Z := f_conv (sf_eb s) (sf_fb s) 11 52 v.
(** Lines 81-83 and 138-140; the literals have type int. *)
Definition sf_two (s : sfmt) : Z := sf_of_int s 2.
Definition sf_one (s : sfmt) : Z := sf_of_int s 1.
Definition sf_zero (s : sfmt) : Z := sf_of_int s 0.
(** Lines 92-96 and 149-153. *)
Definition sf_neg (s : sfmt) (v : Z) : Z := Z.lxor v (match s with S16 => 0x8000 | S32 => 0x80000000 end).
(** Lines 85-90 and 142-147; += and *= are the same with an assignment. Subtraction adds the number with the other
    sign (IEEE-754 5.4.1). *)
Definition sf_add (s : sfmt) (a b : Z) : Z := f_add (sf_eb s) (sf_fb s) (rnd (sf_eb s) (sf_fb s)) a b.
Definition sf_sub (s : sfmt) (a b : Z) : Z := f_add (sf_eb s) (sf_fb s) (rnd (sf_eb s) (sf_fb s)) a (Z.lxor b (2 ^ (sf_w s - 1))).
Definition sf_mul (s : sfmt) (a b : Z) : Z := f_mul (sf_eb s) (sf_fb s) (rnd (sf_eb s) (sf_fb s)) a b.
Definition sf_div (s : sfmt) (a b : Z) : Z := f_div (sf_eb s) (sf_fb s) (rnd (sf_eb s) (sf_fb s)) a b.
(** Lines 102-104 and 155-157. *)
Definition sf_half (s : sfmt) (a : Z) : Z := sf_div s a (sf_two s).
Definition sf_square (s : sfmt) (a : Z) : Z := sf_mul s a a.
Definition sf_inv (s : sfmt) (a : Z) : Z := sf_div s (sf_one s) a.
End rnd.
(** Lines 106-110 and 163-167. *)
Definition sf_eq (s : sfmt) (a b : Z) : bool := f_eq (sf_eb s) (sf_fb s) a b.
Definition sf_lt (s : sfmt) (a b : Z) : bool := f_lt (sf_eb s) (sf_fb s) a b.
Definition sf_gt (s : sfmt) (a b : Z) : bool := f_lt (sf_eb s) (sf_fb s) b a.
Definition sf_ge (s : sfmt) (a b : Z) : bool := f_le (sf_eb s) (sf_fb s) b a.
Definition sf_le (s : sfmt) (a b : Z) : bool := f_le (sf_eb s) (sf_fb s) a b.

(** numeric_limits<softfloat32>, softfloat.hpp 180-227, with the constants of floattraits.hpp 129-138. *)
Definition sl_min : Z := t_min single_trait.
Definition sl_max : Z := t_max single_trait.
Definition sl_lowest : Z := t_lowest single_trait.
Definition sl_epsilon : Z := 0x34000000.
Definition sl_denorm_min : Z := 1.
Definition sl_infinity : Z := t_pinf single_trait.
Definition sl_quiet_NaN : Z := t_nan single_trait.
Definition sl_digits : Z := 24.
Definition sl_digits10 : Z := 6.
Definition sl_min_exponent : Z := -126.
Definition sl_min_exponent10 : Z := -37.
Definition sl_max_exponent : Z := 127.
Definition sl_max_exponent10 : Z := 38.
