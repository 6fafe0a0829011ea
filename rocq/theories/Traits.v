(** Model of include/floattraits.hpp, include/fixedtraits.hpp and the width selectors of
    include/typehelpers.hpp. *)
From Coq Require Import ZArith Bool.
From Verif Require Import Res CInt.
Open Scope Z_scope.

(** The members of a float trait used by unpacked.h (floattraits.hpp 45-179). *)
Record ftrait : Set := FTrait {
  t_hold : Z;      (* bits of holder_t *)
  t_data : Z;      (* data_bits *)
  t_ebits : Z;     (* exponent_bits *)
  t_fbits : Z;     (* fraction_bits *)
  t_bias : Z;      (* exponent_bias *)
  t_emax : Z;      (* exponent_max, the largest raw exponent of a finite number *)
  t_emask : Z;     (* exponent_mask *)
  t_denorm : bool; (* with_denorm *)
  t_signbit : Z;
  t_pinf : Z; t_ninf : Z; t_nan : Z;
  t_one : Z; t_two : Z; t_max : Z; t_lowest : Z; t_min : Z
}.

(** bitmask<holder_t>(n) inside the constant expressions of any_floattrait
    (bithippop.hpp 64-68 evaluated at compile time, 0 < n <= width). *)
Definition kmask (n : Z) : Z := 2 ^ n - 1.

(** floattraits.hpp 45-77, [any_floattrait<exp_bits,frac_bits,_,holder,with_denorm>].
    The static_assert of line 51 makes the holder width equal to data_bits. *)
Definition any_floattrait (eb fb : Z) (denorm : bool) : ftrait :=
  let data := eb + fb + 1 in
  let h z := cast (uint data) z in
  let signbit := h (2 ^ (data - 1)) in
  let pinf := h (kmask eb * 2 ^ fb) in
  let max := h (cor (kmask (eb - 1) * 2 ^ (fb + 1)) (kmask fb)) in
  {| t_hold := data; t_data := data; t_ebits := eb; t_fbits := fb;
     t_bias := 2 ^ (eb - 1) - 1;
     t_emax := 2 ^ eb - 2;
     t_emask := 2 ^ eb - 1;
     t_denorm := denorm;
     t_signbit := signbit;
     t_pinf := pinf;
     t_ninf := cor pinf signbit;
     t_nan := h (kmask (eb + 1) * 2 ^ (fb - 1));
     t_one := h (kmask (eb - 1) * 2 ^ fb);
     t_two := h (2 ^ (eb - 1 + fb));
     t_max := max;
     t_lowest := cor max signbit;
     t_min := h (2 ^ fb) |}.

(** floattraits.hpp 80-88. *)
Definition microfloat_trait : ftrait := any_floattrait 5 2 true.
Definition half_traitalt : ftrait := any_floattrait 8 7 true.
Definition bfloat16_trait : ftrait := any_floattrait 8 7 false.

(** floattraits.hpp 91-114. *)
Definition half_trait : ftrait :=
  {| t_hold := 16; t_data := 16; t_ebits := 5; t_fbits := 10; t_bias := 15; t_emax := 30;
     t_emask := 31; t_denorm := true; t_signbit := 0x8000;
     t_pinf := 0x7C00; t_ninf := 0xFC00; t_nan := 0x7E00;
     t_one := 0x3C00; t_two := 0x4000; t_max := 0x7bff; t_lowest := 0xfbff; t_min := 0x0400 |}.

(** floattraits.hpp 117-148. *)
Definition single_trait : ftrait :=
  {| t_hold := 32; t_data := 32; t_ebits := 8; t_fbits := 23; t_bias := 127; t_emax := 254;
     t_emask := 255; t_denorm := true; t_signbit := 0x80000000;
     t_pinf := 0x7f800000; t_ninf := 0xff800000; t_nan := 0x7fc00000;
     t_one := 0x3f800000; t_two := 0x40000000; t_max := 0x7f7fffff; t_lowest := 0xff7fffff;
     t_min := 0x00800000 |}.

(** floattraits.hpp 151-179. *)
Definition double_trait : ftrait :=
  {| t_hold := 64; t_data := 64; t_ebits := 11; t_fbits := 52; t_bias := 1023; t_emax := 2046;
     t_emask := 2047; t_denorm := true; t_signbit := 0x8000000000000000;
     t_pinf := 0x7ff0000000000000; t_ninf := 0xfff0000000000000; t_nan := 0x7ff8000000000000;
     t_one := 0x3ff0000000000000; t_two := 0x4000000000000000; t_max := 0x7fefffffffffffff;
     t_lowest := 0xffefffffffffffff; t_min := 0x10000000000000 |}.

(** fixedtraits.hpp 12-23, [fixedtrait<T,N,F>]; [x_w] is the width of T. *)
Record xtrait : Set := XTrait { x_w : Z; x_total : Z; x_frac : Z }.

(** unpacked.h 155, 161: fixedtrait<int, 32, 0>. *)
Definition int_trait : xtrait := {| x_w := 32; x_total := 32; x_frac := 0 |}.

(** typehelpers.hpp 173-192, width of int_least_bits<n>::signed_type. *)
Definition least_bits (n : Z) : Z :=
  if n <=? 8 then 8 else if n <=? 16 then 16 else if n <=? 32 then 32
  else if n <=? 64 then 64 else 128.
