(** The tabulated classes posit8, posit10 and posit12, and the SIMD class over posit8.

    A posit8 is its member [int8_t v], a posit10 or posit12 its member [int16_t v]: a [Z] in the range of
    that type. posit10 has no shipped table (it is generated at build time): its constants
    are here, its operations in Gen.v. *)
From Coq Require Import ZArith List Bool.
From Verif Require Import Res CInt Traits Unpacked Cfg Posit Configs.
From Verif Require Tbl8 Tbl12.
Import ListNotations.
Open Scope Z_scope.

(** [tab[i]] for an array of unsigned [w] bit entries stored in rows of [cols]. *)
Definition tab_get (w cols : Z) (rows : list Z) (i : Z) : res Z :=
  if (i <? 0) || (cols * Z.of_nat (length rows) <=? i) then UB OutOfBounds
  else Ok (Z.land (Z.shiftr (nth (Z.to_nat (i / cols)) rows 0) (w * (i mod cols))) (Z.ones w)).

(** ** posit8 *)
(** posit8.hpp 45-52: FPT = Posit<int8_t,8,0,uint8_t,WithNan>. *)
Definition t8 : cfg := p8.
Definition i8 (x : Z) : Z := cast (sint 8) x.
(** posit8.hpp 109. *)
Definition t8_uu (v : Z) : Z := cast (uint 8) v.
(** A table of 256 [int8_t] (src/posit8_tbl.cpp 10-17) read at [uu()], and one of 65536 (4-9) read at
    [a.uu()*256+b.uu()]. *)
Definition t8_get1 (rows : list Z) (v : Z) : res Z :=
  let! r := tab_get 8 256 rows (t8_uu v) in Ok (i8 r).
Definition t8_get2 (rows : list Z) (a b : Z) : res Z :=
  let! r := tab_get 8 256 rows (t8_uu a * 256 + t8_uu b) in Ok (i8 r).

(** posit8.hpp 100, 101, 103. *)
Definition t8_add (a b : Z) : res Z := t8_get2 Tbl8.opadd_rows a b.
Definition t8_mul (a b : Z) : res Z := t8_get2 Tbl8.opmul_rows a b.
Definition t8_div (a b : Z) : res Z := t8_get2 Tbl8.opdiv_rows a b.
(** posit8.hpp 91, 134; posit8.hpp 102. *)
Definition t8_neg (v : Z) : Z := i8 (- v).
Definition t8_sub (a b : Z) : res Z := t8_add a (t8_neg b).
(** posit8.hpp 86, 87, 89, 90. *)
Definition t8_inv (v : Z) : res Z := t8_get1 Tbl8.opinv_rows v.
Definition t8_half (v : Z) : res Z := t8_get1 Tbl8.ophalf_rows v.
Definition t8_exp2 (v : Z) : res Z := t8_get1 Tbl8.opexp2_rows v.
Definition t8_square (v : Z) : res Z := t8_get1 Tbl8.opsquare_rows v.
(** src/posit8.cpp 87-98. *)
Definition t8_twice (v : Z) : res Z := let! two := p_of_int t8 2 in p_mul t8 v two.
(** posit8.hpp 113: the bit pattern of the float. *)
Definition t8_to_float (v : Z) : res Z := tab_get 32 256 Tbl8.op2float_rows (t8_uu v).
(** src/posit8.cpp 14-23. *)
Definition t8_of_int (a : Z) : res Z :=
  if a =? 0 then Ok 0 else if a =? 1 then Ok 64 else p_of_int t8 a.
(** src/posit8.cpp 25-34, 36-45: construction from a float or double by bit pattern; both zeros compare
    equal to 0. *)
Definition ct_of_float (c : cfg) (one : Z) (t : ftrait) (bits : Z) : res Z :=
  if (bits =? 0) || (bits =? 2 ^ (t_ebits t + t_fbits t)) then Ok 0
  else if bits =? (2 ^ (t_ebits t - 1) - 1) * 2 ^ t_fbits t then Ok one
  else p_of_float c t bits.
Definition t8_of_float (bits : Z) : res Z := ct_of_float t8 64 single_trait bits.
Definition t8_of_double (bits : Z) : res Z := ct_of_float t8 64 double_trait bits.
(** C++ conversion of the float with the given bits to int: the fractional part is dropped; undefined
    when the result does not fit and for infinities and NaN ([conv.fpint]). *)
Definition float_to_int (bits : Z) : res Z :=
  let e := (bits / 2 ^ 23) mod 2 ^ 8 in
  let m := 2 ^ 23 + bits mod 2 ^ 23 in
  let a := if e <? 127 then 0 else if e <=? 150 then m / 2 ^ (150 - e) else m * 2 ^ (e - 150) in
  let r := if bits <? 2 ^ 31 then a else - a in
  if (e =? 255) || (r <? - 2 ^ 31) || (2 ^ 31 <=? r) then UB FloatToInt else Ok r.
(** posit8.hpp 115. *)
Definition t8_to_int (v : Z) : res Z := let! b := t8_to_float v in float_to_int b.
(** posit8.hpp 73, 74. *)
Definition t8_is_nan (v : Z) : bool := withnan t8 && (v =? P_NAN t8).
Definition t8_is_infinity (v : Z) : bool := (v =? P_PINF t8) || (v =? P_NINF t8).
(** posit8.hpp 75-84. *)
Definition t8_max : Z := i8 (P_MAXPOS t8).
Definition t8_min : Z := 1.
Definition t8_one : Z := i8 (P_ONE t8).
Definition t8_afterone : Z := i8 (P_ONE t8 + 1).
Definition t8_two : Z := 72.
Definition t8_onehalf : Z := 0x20.
Definition t8_pinfinity : Z := i8 (P_PINF t8).
Definition t8_ninfinity : Z := i8 (P_NINF t8).
Definition t8_nan : Z := i8 (P_NAN t8).
(** posit8.hpp 93-98. *)
Definition t8_lt (a b : Z) : bool := a <? b.
Definition t8_gt (a b : Z) : bool := a >? b.
Definition t8_le (a b : Z) : bool := a <=? b.
Definition t8_ge (a b : Z) : bool := a >=? b.
Definition t8_eq (a b : Z) : bool := a =? b.
Definition t8_ne (a b : Z) : bool := negb (a =? b).
(** posit8.hpp 149: numeric_limits<posit8>::epsilon. *)
Definition t8_epsilon : res Z := t8_sub t8_afterone t8_one.
(** posit8.hpp 158-171. *)
Definition t8_abs (v : Z) : Z := i8 (if v <? 0 then - v else v).
Definition t8_stdmin (a b : Z) : Z := if t8_le a b then a else b.
Definition t8_stdmax (a b : Z) : Z := if t8_ge a b then a else b.

(** ** posit12 *)
(** posit12.hpp 39-46: FPT = Posit<int16_t,12,2,uint16_t,WithNan>. *)
Definition t12 : cfg := p12.
Definition i16 (x : Z) : Z := cast (sint 16) x.
(** posit12.hpp 101. *)
Definition t12_uu (v : Z) : Z := cand (cast (uint 16) v) 0x0FFF.
Definition t12_get (rows : list Z) (v : Z) : res Z :=
  let! r := tab_get 16 64 rows (t12_uu v) in Ok (i16 r).
(** posit12.hpp 78, 81, 82, 109. *)
Definition t12_inv (v : Z) : res Z := t12_get Tbl12.opinv_rows v.
Definition t12_exp2 (v : Z) : res Z := t12_get Tbl12.opexp2_rows v.
Definition t12_square (v : Z) : res Z := t12_get Tbl12.opsquare_rows v.
Definition t12_to_float (v : Z) : res Z := tab_get 32 64 Tbl12.op2float_rows (t12_uu v).
Definition t12_to_int (v : Z) : res Z := let! b := t12_to_float v in float_to_int b.
(** src/posit12.cpp 15-25. *)
Definition t12_of_int (a : Z) : res Z := p_of_int t12 a.
Definition t12_of_float (bits : Z) : res Z := p_of_float t12 single_trait bits.
(** posit12.hpp 92-95, 83. *)
Definition t12_neg (v : Z) : Z := i16 (- v).
Definition t12_add (a b : Z) : res Z := p_add t12 a b.
Definition t12_mul (a b : Z) : res Z := p_mul t12 a b.
Definition t12_div (a b : Z) : res Z := p_div t12 a b.
Definition t12_sub (a b : Z) : res Z := t12_add a (t12_neg b).
(** src/posit12.cpp 53-66 and 69-80. *)
Definition t12_half (v : Z) : res Z := let! two := p_of_int t12 2 in p_div t12 v two.
Definition t12_twice (v : Z) : res Z := let! two := p_of_int t12 2 in p_mul t12 v two.
(** posit12.hpp 67-76. *)
Definition t12_is_nan (v : Z) : bool := withnan t12 && (v =? -2048).
Definition t12_is_infinity (v : Z) : bool := if withnan t12 then (v =? -2047) || (v =? 2047) else v =? -2048.
Definition t12_max : Z := i16 (P_MAXPOS t12).
Definition t12_min : Z := 1.
Definition t12_one : Z := 0x400.
Definition t12_afterone : Z := 0x401.
Definition t12_onehalf : Z := 0x200.
Definition t12_pinfinity : Z := if withnan t12 then 2047 else -2048.
Definition t12_ninfinity : Z := if withnan t12 then -2047 else -2048.
Definition t12_nan : Z := if withnan t12 then -2048 else 0.
(** posit12.hpp 134, 142-156. *)
Definition t12_epsilon : res Z := t12_sub t12_afterone t12_one.
Definition t12_abs (v : Z) : Z := i16 (if v <? 0 then - v else v).

(** ** posit10: constants and predicates *)
(** posit10.hpp 45-52: FPT = Posit<int16_t,10,2,uint16_t,WithNan>. *)
Definition t10 : cfg := Cfg 16 10 2 16 WithNan.
(** posit10.hpp 75-86. *)
Definition t10_is_nan (v : Z) : bool := withnan t10 && (v =? -512).
Definition t10_is_infinity (v : Z) : bool := if withnan t10 then (v =? -511) || (v =? 511) else v =? -512.
Definition t10_max : Z := if withnan t10 then 510 else 511.
Definition t10_min : Z := 1.
Definition t10_one : Z := 0x100.
Definition t10_afterone : Z := 0x101.
Definition t10_zero : Z := 0.
Definition t10_two : Z := 288.
Definition t10_onehalf : Z := 0x80.
Definition t10_pinfinity : Z := if withnan t10 then 511 else -512.
Definition t10_ninfinity : Z := if withnan t10 then -511 else -512.
Definition t10_nan : Z := if withnan t10 then -512 else 0.

(** ** simd_posit8_32 *)
(** A __m256i is a list of 32 unsigned bytes, lane 0 first (simdposit8.hpp 48-70: the intrinsics store
    and load the lanes in memory order). The tables are the posit8 tables, declared there as uint8_t
    (simdposit8.hpp 29-34). *)
Fixpoint lanes {A B : Type} (f : A -> res B) (l : list A) : res (list B) :=
  match l with
  | [] => Ok []
  | x :: t => let! y := f x in let! r := lanes f t in Ok (y :: r)
  end.
(** simdposit8.hpp 48-57. *)
Definition simd_lookup1 (rows : list Z) (a : list Z) : res (list Z) := lanes (tab_get 8 256 rows) a.
(** simdposit8.hpp 59-70. *)
Definition simd_lookup2 (rows : list Z) (a b : list Z) : res (list Z) :=
  lanes (fun p => tab_get 8 256 rows (fst p * 256 + snd p)) (combine a b).
(** simdposit8.hpp 102, 103, 105, 93, 97, 98. *)
Definition simd_add (a b : list Z) : res (list Z) := simd_lookup2 Tbl8.opadd_rows a b.
Definition simd_mul (a b : list Z) : res (list Z) := simd_lookup2 Tbl8.opmul_rows a b.
Definition simd_div (a b : list Z) : res (list Z) := simd_lookup2 Tbl8.opdiv_rows a b.
Definition simd_inv (a : list Z) : res (list Z) := simd_lookup1 Tbl8.opinv_rows a.
Definition simd_exp2 (a : list Z) : res (list Z) := simd_lookup1 Tbl8.opexp2_rows a.
Definition simd_square (a : list Z) : res (list Z) := simd_lookup1 Tbl8.opsquare_rows a.
(** simdposit8.hpp 99, 104: _mm256_sign_epi8(v,v) negates (modulo 256) the lanes of [v] where the second
    argument, here [v] again, is negative, and zeroes those where it is 0. *)
Definition sign_epi8 (x y : Z) : Z :=
  let s := cast (sint 8) y in
  if s <? 0 then cast (uint 8) (- x) else if s =? 0 then 0 else x.
Definition simd_neg (a : list Z) : list Z := map (fun v => sign_epi8 v v) a.
Definition simd_sub (a b : list Z) : res (list Z) := simd_add a (simd_neg b).
(** simdposit8.hpp 19-23, 74 and src/simdposit8.cpp 16-21: without posit8.hpp the posit type of the
    constructors is Posit<int8_t,8,2,uint16_t,WithNan>, although the tables are those of esbits 0. *)
Definition simd_fpt : cfg := Cfg 8 8 2 16 WithNan.
Definition simd_of_int (a : Z) : res (list Z) :=
  let! q := p_of_int simd_fpt a in Ok (repeat (cast (uint 8) q) 32).
(** simdposit8.hpp 94, 95. *)
Definition simd_half (a : list Z) : res (list Z) := let! two := simd_of_int 2 in simd_div a two.
Definition simd_twice (a : list Z) : res (list Z) := let! two := simd_of_int 2 in simd_mul a two.
(** simdposit8.hpp 88-91: all ones or all zeros per lane. *)
Definition mask (b : bool) : Z := if b then 255 else 0.
Definition simd_is_negative (a : list Z) : list Z := map (fun v => mask (0 >? cast (sint 8) v)) a.
Definition simd_is_nan (a : list Z) : list Z := map (fun v => mask (cast (sint 8) v =? -128)) a.
Definition simd_is_infinity (a : list Z) : list Z :=
  map (fun v => if withnan simd_fpt then cor (mask (cast (sint 8) v =? -127)) (mask (cast (sint 8) v =? 127))
                else mask (cast (sint 8) v =? -128)) a.
(** src/simdposit8.cpp 56-83: the bit patterns of the floats. *)
Definition simd_to_floats (a : list Z) : res (list Z) := lanes (tab_get 32 256 Tbl8.op2float_rows) a.
