(** positf.h: PositF<T,totalbits,esbits,FFT,positspec>, posits that compute in float or double.

    [c] holds the template parameters with [cF c] the width of FT, the holder of FFT (positf.h 25), so that
    PPT = Posit<T,totalbits,esbits,FT,positspec> (positf.h 27) is the class modelled in [Posit]. [rnd] is the
    rounding of the two float types in force.

    Not modelled: [fma] and [operator*=] (positf.h 114-123) give a float to [pack_posit(UnpackedT)], and
    the constructor of UnpackedT from a float is explicit; [unpack_low] and [unpack_posit] (37-40, 62-65)
    lack a [typename]; [ldexp] (77) has no definition. None of them compiles when used. *)
From Coq Require Import ZArith QArith Bool.
From Verif Require Import Res CInt Bits Traits Unpacked Cfg Posit Spec FloatOps.
Open Scope Z_scope.

(** FFT: the types with is_floating_point and a float2trait (positf.h 18, floattraits.hpp 242-254). *)
Inductive fft : Set := FFloat | FDouble.
Definition f_eb (k : fft) : Z := match k with FFloat => 8 | FDouble => 11 end.
Definition f_fb (k : fft) : Z := match k with FFloat => 23 | FDouble => 52 end.
(** float2trait<FFT>::trait, floattraits.hpp 242-254. *)
Definition f_tr (k : fft) : ftrait := match k with FFloat => single_trait | FDouble => double_trait end.
(** FT, positf.h 25. *)
Definition f_hold (k : fft) : Z := t_hold (f_tr k).

(** Literals of the C++ types, as patterns: 0.5 (double), 1 and 2 converted to FFT. *)
Definition lit_half : Z := 0x3fe0000000000000.
Definition lit_one (k : fft) : Z := t_one (f_tr k).
Definition lit_two (k : fft) : Z := t_two (f_tr k).

(** positf.h 79-80: construction from float and double; 154-155 and 86: conversion to them. *)
Definition pf_of (c : cfg) (k : fft) (b : Z) : res Z := p_of_float c (f_tr k) b.
Definition pf_to (c : cfg) (k : fft) (v : Z) : res Z := p_to_float c (f_tr k) v.
(** positf.h 81: an int becomes a double first. *)
Definition pf_of_int (c : cfg) (rnd : fft -> Q -> Z) (i : Z) : res Z :=
  pf_of c FDouble (rnd FDouble (inject_Z i)).
(** positf.h 157. *)
Definition pf_to_int (c : cfg) (v : Z) : res Z := p_to_int c v.

(** positf.h 34: [0.5*(FFT)unpack()] is a double. *)
Definition pf_half (c : cfg) (k : fft) (rnd : fft -> Q -> Z) (v : Z) : res Z :=
  let! x := pf_to c k v in
  let d := match k with FFloat => f_widen 8 23 11 52 (rnd FDouble) x | FDouble => x end in
  pf_of c FDouble (f_mul 11 52 (rnd FDouble) lit_half d).
(** positf.h 35. *)
Definition pf_twice (c : cfg) (k : fft) (rnd : fft -> Q -> Z) (v : Z) : res Z :=
  let! x := pf_to c k v in pf_of c k (f_mul (f_eb k) (f_fb k) (rnd k) (lit_two k) x).
(** positf.h 90, 149, 220. *)
Definition pf_inv (c : cfg) (k : fft) (rnd : fft -> Q -> Z) (v : Z) : res Z :=
  let! x := pf_to c k v in pf_of c k (f_div (f_eb k) (f_fb k) (rnd k) (lit_one k) x).
(** positf.h 88-89, 148, 217, 229-233: as in Posit. *)
Definition pf_abs (c : cfg) (v : Z) : res Z := p_abs c v.
Definition pf_neg (c : cfg) (v : Z) : res Z := p_neg c v.

(** positf.h 109-112. *)
Definition pf_mul (c : cfg) (k : fft) (rnd : fft -> Q -> Z) (a b : Z) : res Z :=
  let! x := pf_to c k a in let! y := pf_to c k b in
  pf_of c k (f_mul (f_eb k) (f_fb k) (rnd k) x y).
(** positf.h 124-129. *)
Definition pf_add (c : cfg) (k : fft) (rnd : fft -> Q -> Z) (a b : Z) : res Z :=
  if iszero a then Ok b else if iszero b then Ok a
  else let! x := pf_to c k a in let! y := pf_to c k b in
       pf_of c k (f_add (f_eb k) (f_fb k) (rnd k) x y).
(** positf.h 150. *)
Definition pf_sub (c : cfg) (k : fft) (rnd : fft -> Q -> Z) (a b : Z) : res Z :=
  let! n := pf_neg c b in pf_add c k rnd a n.
(** positf.h 151. *)
Definition pf_div (c : cfg) (k : fft) (rnd : fft -> Q -> Z) (a b : Z) : res Z :=
  let! x := pf_to c k a in let! y := pf_to c k b in
  pf_of c k (f_div (f_eb k) (f_fb k) (rnd k) x y).

(** positf.h 69-75: comparisons of the patterns. *)
Definition pf_eq (a b : Z) : bool := a =? b.
Definition pf_ne (a b : Z) : bool := negb (a =? b).
Definition pf_lt (a b : Z) : bool := a <? b.
Definition pf_le (a b : Z) : bool := a <=? b.
Definition pf_gt (a b : Z) : bool := a >? b.
Definition pf_ge (a b : Z) : bool := a >=? b.
(** positf.h 235-245. *)
Definition pf_stdmin (a b : Z) : Z := if pf_le a b then a else b.
Definition pf_stdmax (a b : Z) : Z := if pf_ge a b then a else b.

(** positf.h 94-98. *)
Definition pf_isNaN (c : cfg) (v : Z) : bool := isNaN c v.
Definition pf_isinfinity (c : cfg) (v : Z) : bool := (v =? P_PINF c) || (v =? P_NINF c).

(** positf.h 99-100. *)
Definition pf_prev (c : cfg) (v : Z) : res Z := p_prev c v.
Definition pf_next (c : cfg) (v : Z) : res Z := p_next c v.
(** positf.h 161-170: as in Posit. *)
Definition pf_pseudosigmoid (c : cfg) (v : Z) : res Z := p_pseudosigmoid c v.
Definition pf_pseudosoftplus (c : cfg) (v : Z) : res Z := p_pseudosoftplus c v.
Definition pf_isUnitRange (c : cfg) (v : Z) : bool := p_isUnitRange c v.
Definition pf_urOneMinus (c : cfg) (v : Z) : res Z := p_urOneMinus c v.
(** positf.h 173. *)
Definition pf_urDeltaPs (c : cfg) (k : fft) (rnd : fft -> Q -> Z) (v : Z) : res Z :=
  let! w := pf_urOneMinus c v in pf_mul c k rnd v w.
(** positf.h 261. *)
Definition pf_epsilon (c : cfg) (k : fft) (rnd : fft -> Q -> Z) : res Z :=
  let! n := pf_next c (p_one c) in pf_sub c k rnd n (p_one c).
