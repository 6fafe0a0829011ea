(** The programs that write the tables of posit8, posit10 and posit12 (src/posit8_gen.cpp,
    src/posit10_gen.cpp, src/posit12_gen.cpp), and the class posit10, whose table is not shipped but made by
    its program when the library is built.

    [c] is the Posit type X of the program; [rnd] the rounding of float arithmetic in force; [ex] the
    function [exp2] of the C library on floats. An array is a function of the index. The programs print the
    entries in decimal and the compiler reads them back: an entry of the array is an entry of the table (C146).

    posit8_gen.cpp 16, posit10_gen.cpp 21, posit12_gen.cpp 18: X is the type FPT of the class. *)
From Coq Require Import ZArith QArith List Bool.
From Verif Require Import Res CInt Traits Unpacked Cfg Posit Configs FloatOps Tab.
Import ListNotations.
Open Scope Z_scope.

(** Values of the loop variables: posit8_gen.cpp 24, 41, 48; posit10_gen.cpp 26, 41, 48; posit12_gen.cpp 24. *)
Definition g_loop (c : cfg) : list Z :=
  map (fun i => Z.of_nat i - 2 ^ (cN c - 1)) (seq 0 (Z.to_nat (2 ^ cN c))).
(** posit8_gen.cpp 28 (and 45, 52 through [uint8_t]); posit10_gen.cpp 30, 45, 52; posit12_gen.cpp 28. *)
Definition g_index (c : cfg) (s : Z) : Z := cand (cast (uint 16) s) (2 ^ cN c - 1).

(** An array written at [idx s] with [val s] for each [s] of the list, in this order. *)
Definition g_upd (m : Z -> res Z) (i : Z) (x : res Z) : Z -> res Z := fun j => if j =? i then x else m j.
Definition g_fill (idx : Z -> Z) (val : Z -> res Z) (l : list Z) (m : Z -> res Z) : Z -> res Z :=
  fold_left (fun m s => g_upd m (idx s) (val s)) l m.
Definition g_new : Z -> res Z := fun _ => UB Uninit.

(** [fx], posit8_gen.cpp 29-31; posit10_gen.cpp 31-33; posit12_gen.cpp 29-32. *)
Definition g_float (c : cfg) (s : Z) : res Z := p_to_float c single_trait s.
(** The entries computed from one posit: posit8_gen.cpp 33-37, posit10_gen.cpp 34-38, posit12_gen.cpp 33-36.
    The literal 2 becomes a float. [exp2] is taken at type float: the shipped posit12 table has 2^x = 1 for
    the smallest negative x, which the double function does not give. *)
Definition g_inv (c : cfg) (s : Z) : res Z := p_inv c s.
Definition g_square (c : cfg) (rnd : Q -> Z) (s : Z) : res Z :=
  let! x := g_float c s in p_of_float c single_trait (f_mul 8 23 rnd x x).
Definition g_half (c : cfg) (rnd : Q -> Z) (s : Z) : res Z :=
  let! x := g_float c s in p_of_float c single_trait (f_div 8 23 rnd x (t_two single_trait)).
Definition g_exp2 (c : cfg) (ex : Z -> Z) (s : Z) : res Z :=
  let! x := g_float c s in p_of_float c single_trait (ex x).

(** The arrays of 2^totalbits entries after the first loop. *)
Definition g_opinv (c : cfg) : Z -> res Z := g_fill (g_index c) (g_inv c) (g_loop c) g_new.
Definition g_opsquare (c : cfg) (rnd : Q -> Z) : Z -> res Z := g_fill (g_index c) (g_square c rnd) (g_loop c) g_new.
Definition g_ophalf (c : cfg) (rnd : Q -> Z) : Z -> res Z := g_fill (g_index c) (g_half c rnd) (g_loop c) g_new.
Definition g_opexp2 (c : cfg) (ex : Z -> Z) : Z -> res Z := g_fill (g_index c) (g_exp2 c ex) (g_loop c) g_new.
Definition g_op2float (c : cfg) : Z -> res Z := g_fill (g_index c) (g_float c) (g_loop c) g_new.

(** The second, nested loop: posit8_gen.cpp 41-60, posit10_gen.cpp 41-60. *)
Definition g_pair (c : cfg) (op : Z -> Z -> Z) (s1 s2 : Z) : res Z :=
  let! x := g_op2float c (g_index c s1) in let! y := g_op2float c (g_index c s2) in
  p_of_float c single_trait (op x y).
Definition g_pairs (c : cfg) (op : Z -> Z -> Z) : Z -> res Z :=
  fold_left (fun m s1 => g_fill (fun s2 => g_index c s1 * 2 ^ cN c + g_index c s2) (g_pair c op s1) (g_loop c) m) (g_loop c) g_new.
Definition g_opadd (c : cfg) (rnd : Q -> Z) : Z -> res Z := g_pairs c (f_add 8 23 rnd).
Definition g_opmul (c : cfg) (rnd : Q -> Z) : Z -> res Z := g_pairs c (f_mul 8 23 rnd).
Definition g_opdiv (c : cfg) (rnd : Q -> Z) : Z -> res Z := g_pairs c (f_div 8 23 rnd).

(** ** The shipped tables, entry by entry: src/posit8_tbl.cpp, src/posit12_tbl.cpp *)
Definition s8_entry (rows : list Z) (i : Z) : res Z := let! r := tab_get 8 256 rows i in Ok (i8 r).
Definition s12_entry (rows : list Z) (i : Z) : res Z := let! r := tab_get 16 64 rows i in Ok (i16 r).
Definition s8_op2float (i : Z) : res Z := tab_get 32 256 Tbl8.op2float_rows i.
Definition s12_op2float (i : Z) : res Z := tab_get 32 64 Tbl12.op2float_rows i.

(** ** posit10 *)
(** posit10.hpp 119. *)
Definition t10_uu (v : Z) : Z := cand (cast (uint 16) v) 0x03FF.
(** Array reads, in bounds. *)
Definition g_get (n : Z) (a : Z -> res Z) (i : Z) : res Z := if (i <? 0) || (n <=? i) then UB OutOfBounds else a i.
(** posit10.hpp 109, 110, 112 and 95, 96, 98, 99, 126. *)
Definition t10_add (rnd : Q -> Z) (a b : Z) : res Z := g_get (1024 * 1024) (g_opadd t10 rnd) (t10_uu a * 1024 + t10_uu b).
Definition t10_mul (rnd : Q -> Z) (a b : Z) : res Z := g_get (1024 * 1024) (g_opmul t10 rnd) (t10_uu a * 1024 + t10_uu b).
Definition t10_div (rnd : Q -> Z) (a b : Z) : res Z := g_get (1024 * 1024) (g_opdiv t10 rnd) (t10_uu a * 1024 + t10_uu b).
Definition t10_inv (v : Z) : res Z := g_get 1024 (g_opinv t10) (t10_uu v).
Definition t10_half (rnd : Q -> Z) (v : Z) : res Z := g_get 1024 (g_ophalf t10 rnd) (t10_uu v).
Definition t10_square (rnd : Q -> Z) (v : Z) : res Z := g_get 1024 (g_opsquare t10 rnd) (t10_uu v).
Definition t10_exp2 (ex : Z -> Z) (v : Z) : res Z := g_get 1024 (g_opexp2 t10 ex) (t10_uu v).
Definition t10_to_float (v : Z) : res Z := g_get 1024 (g_op2float t10) (t10_uu v).
(** posit10.hpp 100, 111. *)
Definition t10_neg (v : Z) : Z := i16 (- v).
Definition t10_sub (rnd : Q -> Z) (a b : Z) : res Z := t10_add rnd a (t10_neg b).
(** src/posit10.cpp 86-97. *)
Definition t10_twice (v : Z) : res Z := let! two := p_of_int t10 2 in p_mul t10 v two.
(** src/posit10.cpp 14-43. *)
Definition t10_of_int (a : Z) : res Z := if a =? 0 then Ok 0 else if a =? 1 then Ok 0x100 else p_of_int t10 a.
Definition t10_of_float (bits : Z) : res Z := ct_of_float t10 0x100 single_trait bits.
Definition t10_of_double (bits : Z) : res Z := ct_of_float t10 0x100 double_trait bits.
(** posit10.hpp 128. *)
Definition t10_to_int (v : Z) : res Z := let! b := t10_to_float v in float_to_int b.
(** posit10.hpp 88-93, 156, 163-176. *)
Definition t10_lt (a b : Z) : bool := a <? b.
Definition t10_gt (a b : Z) : bool := a >? b.
Definition t10_le (a b : Z) : bool := a <=? b.
Definition t10_ge (a b : Z) : bool := a >=? b.
Definition t10_eq (a b : Z) : bool := a =? b.
Definition t10_ne (a b : Z) : bool := negb (a =? b).
Definition t10_epsilon (rnd : Q -> Z) : res Z := t10_sub rnd t10_afterone t10_one.
Definition t10_abs (v : Z) : Z := i16 (if v <? 0 then - v else v).
Definition t10_stdmin (a b : Z) : Z := if t10_le a b then a else b.
Definition t10_stdmax (a b : Z) : Z := if t10_ge a b then a else b.

(** ** Predicates and comparisons of the tabulated classes *)
(** posit8.hpp 71, 72; posit10.hpp 72, 73; posit12.hpp 65, 66. *)
Definition t_is_negative (v : Z) : bool := v <? 0.
Definition t8_has_neg_exponent (v : Z) : bool := cand v 0x80 =? 0.
Definition t10_has_neg_exponent (v : Z) : bool := cand v 0x100 =? 0.
Definition t12_has_neg_exponent (v : Z) : bool := cand v 0x400 =? 0.
(** posit12.hpp 85-90, 147-157. *)
Definition t12_lt (a b : Z) : bool := a <? b.
Definition t12_gt (a b : Z) : bool := a >? b.
Definition t12_le (a b : Z) : bool := a <=? b.
Definition t12_ge (a b : Z) : bool := a >=? b.
Definition t12_eq (a b : Z) : bool := a =? b.
Definition t12_ne (a b : Z) : bool := negb (a =? b).
Definition t12_stdmin (a b : Z) : Z := if t12_le a b then a else b.
Definition t12_stdmax (a b : Z) : Z := if t12_ge a b then a else b.
(** simdposit8.hpp 89. *)
Definition simd_has_neg_exponent (a : list Z) : list Z := map (fun v => mask (cand 0x40 v =? 0)) a.
