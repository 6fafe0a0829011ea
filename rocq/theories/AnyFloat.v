(** anyfloat.hpp: anyfloat_emu<expbits,fractionbits,value_t,holder_t,impl_t>, small floats that compute in
    float or double.

    [eb] and [fb] are expbits and fractionbits and [k] is impl_t. holder_t has exactly eb+fb+1 bits
    (static_assert of floattraits.hpp 51). Simplification: with_denorm_ is its default, true
    (anyfloat.hpp 20). The intermediate float operations are rounded by [rnd] one by one (no contraction).

    Not modelled: the constructor from UnpackedT (anyfloat.hpp 63), ill-formed when used; [ldexp] (57), not
    defined; the writer (137-149). *)
From Coq Require Import ZArith QArith Bool.
From Verif Require Import Res CInt Bits Traits Unpacked Cfg Posit Spec FloatOps PositF.
Open Scope Z_scope.

(** Comparison of floats: [None] if an operand is NaN. *)
Definition f_compare (eb fb a b : Z) : option comparison :=
  match ieee_val eb fb a, ieee_val eb fb b with
  | NaNVal, _ | _, NaNVal => None
  | FinVal x, FinVal y => Some (x ?= y)%Q
  | InfVal s, InfVal s' => Some (if Bool.eqb s s' then Eq else if s then Lt else Gt)
  | InfVal s, FinVal _ => Some (if s then Lt else Gt)
  | FinVal _, InfVal s => Some (if s then Gt else Lt)
  end.

(** anyfloat.hpp 36: UnpackedT = Unpacked<holder_t,int>. *)
Definition af_F (eb fb : Z) : Z := eb + fb + 1.
(** anyfloat.hpp 33. *)
Definition af_tr (eb fb : Z) : ftrait := any_floattrait eb fb true.

(** anyfloat.hpp 59-60: construction from float and double. *)
Definition af_of (eb fb : Z) (k : fft) (b : Z) : res Z :=
  let! u := u_unpack_xfloati (af_F eb fb) 32 (f_tr k) b in u_pack_xfloati (af_F eb fb) 32 (af_tr eb fb) u.
(** anyfloat.hpp 61. *)
Definition af_of_int (eb fb i : Z) : res Z :=
  let! u := u_unpack_xfixed (af_F eb fb) 32 int_trait i in u_pack_xfloati (af_F eb fb) 32 (af_tr eb fb) u.
(** anyfloat.hpp 47 and 66, 132-133: conversion to float and double. *)
Definition af_to (eb fb : Z) (k : fft) (v : Z) : res Z :=
  let! u := u_unpack_xfloati (af_F eb fb) 32 (af_tr eb fb) v in u_pack_xfloati (af_F eb fb) 32 (f_tr k) u.
(** anyfloat.hpp 135. *)
Definition af_to_int (eb fb v : Z) : res Z :=
  let! u := u_unpack_xfloati (af_F eb fb) 32 (af_tr eb fb) v in u_pack_xfixed (af_F eb fb) 32 int_trait u.

(** anyfloat.hpp 40: [0.5*(FFT)] is a double. *)
Definition af_half (eb fb : Z) (k : fft) (rnd : fft -> Q -> Z) (v : Z) : res Z :=
  let! x := af_to eb fb k v in
  let d := match k with FFloat => f_widen 8 23 11 52 (rnd FDouble) x | FDouble => x end in
  af_of eb fb FDouble (f_mul 11 52 (rnd FDouble) lit_half d).
(** anyfloat.hpp 41. *)
Definition af_twice (eb fb : Z) (k : fft) (rnd : fft -> Q -> Z) (v : Z) : res Z :=
  let! x := af_to eb fb k v in af_of eb fb k (f_mul (f_eb k) (f_fb k) (rnd k) (lit_two k) x).
(** anyfloat.hpp 70, 127. *)
Definition af_inv (eb fb : Z) (k : fft) (rnd : fft -> Q -> Z) (v : Z) : res Z :=
  let! x := af_to eb fb k v in af_of eb fb k (f_div (f_eb k) (f_fb k) (rnd k) (lit_one k) x).
(** anyfloat.hpp 68, 69, 126, 75, 77. *)
Definition af_abs (eb fb v : Z) : Z := Z.land v (Z.lnot (t_signbit (af_tr eb fb))).
Definition af_neg (eb fb v : Z) : Z := Z.lxor v (t_signbit (af_tr eb fb)).
Definition af_isnegative (eb fb v : Z) : bool := negb (Z.land v (t_signbit (af_tr eb fb)) =? 0).
Definition af_iszero (v : Z) : bool := v =? 0.

(** anyfloat.hpp 91-94, 101-105. *)
Definition af_mul (eb fb : Z) (k : fft) (rnd : fft -> Q -> Z) (a b : Z) : res Z :=
  let! x := af_to eb fb k a in let! y := af_to eb fb k b in
  af_of eb fb k (f_mul (f_eb k) (f_fb k) (rnd k) x y).
(** anyfloat.hpp 96-99. *)
Definition af_fma (eb fb : Z) (k : fft) (rnd : fft -> Q -> Z) (a b c : Z) : res Z :=
  let! x := af_to eb fb k a in let! y := af_to eb fb k b in let! z := af_to eb fb k c in
  af_of eb fb k (f_add (f_eb k) (f_fb k) (rnd k) (f_mul (f_eb k) (f_fb k) (rnd k) x y) z).
(** anyfloat.hpp 106-109, 111. *)
Definition af_add (eb fb : Z) (k : fft) (rnd : fft -> Q -> Z) (a b : Z) : res Z :=
  if af_iszero a then Ok b else if af_iszero b then Ok a
  else let! x := af_to eb fb k a in let! y := af_to eb fb k b in
       af_of eb fb k (f_add (f_eb k) (f_fb k) (rnd k) x y).
(** anyfloat.hpp 128. *)
Definition af_sub (eb fb : Z) (k : fft) (rnd : fft -> Q -> Z) (a b : Z) : res Z :=
  af_add eb fb k rnd a (af_neg eb fb b).
(** anyfloat.hpp 129. *)
Definition af_div (eb fb : Z) (k : fft) (rnd : fft -> Q -> Z) (a b : Z) : res Z :=
  let! x := af_to eb fb k a in let! y := af_to eb fb k b in
  af_of eb fb k (f_div (f_eb k) (f_fb k) (rnd k) x y).

(** anyfloat.hpp 49-54: comparisons of the converted numbers. *)
Definition af_compare (eb fb : Z) (k : fft) (a b : Z) : res (option comparison) :=
  let! x := af_to eb fb k a in let! y := af_to eb fb k b in Ok (f_compare (f_eb k) (f_fb k) x y).
Definition af_test (p : comparison -> bool) (eb fb : Z) (k : fft) (a b : Z) : res bool :=
  let! o := af_compare eb fb k a b in Ok (match o with Some c => p c | None => false end).
Definition af_eq := af_test (fun c => match c with Eq => true | _ => false end).
Definition af_lt := af_test (fun c => match c with Lt => true | _ => false end).
Definition af_le := af_test (fun c => match c with Gt => false | _ => true end).
Definition af_gt := af_test (fun c => match c with Gt => true | _ => false end).
Definition af_ge := af_test (fun c => match c with Lt => false | _ => true end).
Definition af_ne (eb fb : Z) (k : fft) (a b : Z) : res bool :=
  let! r := af_eq eb fb k a b in Ok (negb r).
(** anyfloat.hpp 168-178. *)
Definition af_stdmin (eb fb : Z) (k : fft) (a b : Z) : res Z :=
  let! r := af_le eb fb k a b in Ok (if r then a else b).
Definition af_stdmax (eb fb : Z) (k : fft) (a b : Z) : res Z :=
  let! r := af_ge eb fb k a b in Ok (if r then a else b).

(** anyfloat.hpp 113-124. *)
Definition af_zero : Z := 0.
Definition af_pinf (eb fb : Z) : Z := t_pinf (af_tr eb fb).
Definition af_ninf (eb fb : Z) : Z := t_ninf (af_tr eb fb).
Definition af_max (eb fb : Z) : Z := t_max (af_tr eb fb).
Definition af_min (eb fb : Z) : Z := t_min (af_tr eb fb).
Definition af_lowest (eb fb : Z) : Z := t_lowest (af_tr eb fb).
Definition af_nan (eb fb : Z) : Z := t_nan (af_tr eb fb).
Definition af_one (eb fb : Z) : Z := t_one (af_tr eb fb).
Definition af_two (eb fb : Z) : Z := t_two (af_tr eb fb).
