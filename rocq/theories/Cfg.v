(** Template parameters of [Posit<T,totalbits,esbits,FT,positspec>]. *)
From Coq Require Import ZArith Bool.
Open Scope Z_scope.

(** posit.h 38. *)
Inductive spec : Set := WithNan | WithInf | WithNanInf.

Definition spec_eqb (a b : spec) : bool :=
  match a, b with
  | WithNan, WithNan | WithInf, WithInf | WithNanInf, WithNanInf => true
  | _, _ => false
  end.

(** Template parameters: [cH] bits of T, [cN] totalbits, [ces] esbits, [cF] bits of FT,
    [csp] positspec (posit.h 220). *)
Record cfg : Set := Cfg { cH : Z; cN : Z; ces : Z; cF : Z; csp : spec }.

(** Instantiations accepted by the compiler: integer types of 8,16,32,64 bits, the
    static_asserts of posit.h 46-48, esbits not negative, POSIT_REG_SCALE = 1<<esbits an [int]
    (posit.h 72), and an existing exponent type: nextinttype<int64_t> is an error type
    (typehelpers.hpp 221-226, 254-262), so 64-bit holders need totalbits+esbits < 64. *)
Definition is_width (w : Z) : Prop := w = 8 \/ w = 16 \/ w = 32 \/ w = 64.

Record valid_cfg (c : cfg) : Prop := {
  vc_H : is_width (cH c);
  vc_F : is_width (cF c);
  vc_N : cN c <= cH c;
  vc_es0 : 0 <= ces c;
  vc_es : ces c <= cN c - 3;
  vc_es_int : ces c <= 30;
  vc_64 : cH c = 64 -> cN c + ces c < 64
}.


(** Side conditions on the template parameters used by the theorems. *)

(** Largest regime of a real posit. *)
Definition maxk (c : cfg) : Z := if spec_eqb (csp c) WithNanInf then cN c - 3 else cN c - 2.

(** The constant maxexponent() (posit.h 110) fits the type it is computed in. Only 32 bit holders
    with esbits above 25 can break this. *)
Definition exp_ok (c : cfg) : Prop := cH c = 32 -> maxk c * 2 ^ ces c < 2 ^ 31.

(** Every shift count of pack_low stays below the width of the promoted holder: always true for
    8 and 16 bit holders, and for 32 and 64 bit holders with at least two spare bits. *)
Definition roomy (c : cfg) : Prop := cN c + 1 < Z.max 32 (cH c).

(** FT holds the fraction of every posit exactly, with 2 (resp. 3) spare bits. The longest
    fraction has totalbits-3-esbits bits. *)
Definition frac_fits (c : cfg) : Prop := cN c - 3 - ces c <= cF c.
Definition mul_fits (c : cfg) : Prop := cN c - 3 - ces c + 2 <= cF c.
Definition add_fits (c : cfg) : Prop :=
  cN c - 3 - ces c + 3 <= cF c /\ (cF c < 32 \/ cN c - 3 - ces c + 4 <= cF c).
(** FT holds the exact product of two posit fractions, with spare bits. *)
Definition fma_fits (c : cfg) : Prop := 2 * (cN c - 3 - ces c) + 5 <= cF c.

(** Packing a number of binary exponent [e] shifts the holder by the length of the regime plus the
    exponent bits. [pack_room c e] says that these counts stay below the width of the promoted
    holder. [k] is the regime of the saturated exponent and [s] the length of its run minus 1. *)
Definition pack_room (c : cfg) (e : Z) : Prop :=
  let E := Z.min (maxk c * 2 ^ ces c) (Z.max (- (cN c - 2) * 2 ^ ces c) e) in
  let k := E / 2 ^ ces c in
  let s := if 0 <=? k then k else - k - 1 in
  s + 3 + Z.max 0 (Z.min (cN c - 3 - s) (ces c)) < Z.max 32 (cH c).
