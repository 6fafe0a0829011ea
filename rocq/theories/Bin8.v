(** binary8.hpp and src/binary8.cpp: the class binary8tab, an 8 bit float with 5 exponent and 2 fraction bits
    that looks its results up in tables, and src/binary8_gen.cpp, the program that writes these tables (they
    are not shipped).

    A binary8tab is its member [v], from -128 to 127. [rnd] is the rounding of float arithmetic in force and
    [ex] the function [exp2] of the C library on floats. An array is a function of the index, as in Gen.

    Not modelled: [twice] (binary8.hpp 90), declared and never defined; the writer (169-173). *)
From Coq Require Import ZArith QArith List Bool.
From Verif Require Import Res CInt Traits Unpacked Spec FloatOps PositF AnyFloat Tab Gen.
Import ListNotations.
Open Scope Z_scope.

(** binary8.hpp 21-22, binary8_gen.cpp 17: X = anyfloat_emu<5,2,int8_t,uint8_t,float>.
    binary8_gen.cpp 25, 42, 49: the values of the loop variables. *)
Definition b8_loop : list Z := map (fun i => Z.of_nat i - 128) (seq 0 256).
(** binary8_gen.cpp 29 and, for the second loop, 46, 53. *)
Definition b8_index (s : Z) : Z := cand (cast (uint 16) s) 0xFF.
Definition b8_index2 (s : Z) : Z := cand (cast (uint 8) s) 0xFF.
(** binary8_gen.cpp 28: X::v is a uint8_t. *)
Definition b8_x (s : Z) : Z := cast (uint 8) s.
(** An entry stored in an array of int8_t. *)
Definition b8_store (r : res Z) : res Z := let! z := r in Ok (cast (sint 8) z).
(** binary8_gen.cpp 30: [fx]. *)
Definition b8_float (s : Z) : res Z := af_to 5 2 FFloat (b8_x s).
(** binary8_gen.cpp 34-38. [exp2] is taken at type float. *)
Definition b8_e_inv (rnd : Q -> Z) (s : Z) : res Z := b8_store (af_inv 5 2 FFloat (fun _ => rnd) (b8_x s)).
Definition b8_e_square (rnd : Q -> Z) (s : Z) : res Z :=
  b8_store (let! x := b8_float s in af_of 5 2 FFloat (f_mul 8 23 rnd x x)).
Definition b8_e_half (rnd : Q -> Z) (s : Z) : res Z :=
  b8_store (let! x := b8_float s in af_of 5 2 FFloat (f_div 8 23 rnd x (t_two single_trait))).
Definition b8_e_exp2 (ex : Z -> Z) (s : Z) : res Z :=
  b8_store (let! x := b8_float s in af_of 5 2 FFloat (ex x)).
(** binary8_gen.cpp 25-40. *)
Definition b8_opinv (rnd : Q -> Z) : Z -> res Z := g_fill b8_index (b8_e_inv rnd) b8_loop g_new.
Definition b8_opsquare (rnd : Q -> Z) : Z -> res Z := g_fill b8_index (b8_e_square rnd) b8_loop g_new.
Definition b8_ophalf (rnd : Q -> Z) : Z -> res Z := g_fill b8_index (b8_e_half rnd) b8_loop g_new.
Definition b8_opexp2 (ex : Z -> Z) : Z -> res Z := g_fill b8_index (b8_e_exp2 ex) b8_loop g_new.
Definition b8_op2float : Z -> res Z := g_fill b8_index b8_float b8_loop g_new.
(** binary8_gen.cpp 42-61. *)
Definition b8_pair (op : Z -> Z -> Z) (s1 s2 : Z) : res Z :=
  b8_store (let! x := b8_op2float (b8_index2 s1) in let! y := b8_op2float (b8_index2 s2) in af_of 5 2 FFloat (op x y)).
Definition b8_pairs (op : Z -> Z -> Z) : Z -> res Z :=
  fold_left (fun m s1 => g_fill (fun s2 => b8_index2 s1 * 256 + b8_index2 s2) (b8_pair op s1) b8_loop m) b8_loop g_new.
Definition b8_opadd (rnd : Q -> Z) : Z -> res Z := b8_pairs (f_add 8 23 rnd).
Definition b8_opmul (rnd : Q -> Z) : Z -> res Z := b8_pairs (f_mul 8 23 rnd).
Definition b8_opdiv (rnd : Q -> Z) : Z -> res Z := b8_pairs (f_div 8 23 rnd).

(** binary8.hpp 111. *)
Definition b8_uu (v : Z) : Z := cast (uint 8) v.
(** binary8.hpp 88, 89, 91, 92 and 102, 103, 105, 108, 109. *)
Definition b8_inv (rnd : Q -> Z) (v : Z) : res Z := g_get 256 (b8_opinv rnd) (b8_uu v).
Definition b8_half (rnd : Q -> Z) (v : Z) : res Z := g_get 256 (b8_ophalf rnd) (b8_uu v).
Definition b8_exp2 (ex : Z -> Z) (v : Z) : res Z := g_get 256 (b8_opexp2 ex) (b8_uu v).
Definition b8_square (rnd : Q -> Z) (v : Z) : res Z := g_get 256 (b8_opsquare rnd) (b8_uu v).
Definition b8_add (rnd : Q -> Z) (a b : Z) : res Z := g_get (256 * 256) (b8_opadd rnd) (b8_uu a * 256 + b8_uu b).
Definition b8_mul (rnd : Q -> Z) (a b : Z) : res Z := g_get (256 * 256) (b8_opmul rnd) (b8_uu a * 256 + b8_uu b).
Definition b8_div (rnd : Q -> Z) (a b : Z) : res Z := g_get (256 * 256) (b8_opdiv rnd) (b8_uu a * 256 + b8_uu b).
(** binary8.hpp 93, 104: -v is an int, stored in an int8_t. *)
Definition b8_neg (v : Z) : Z := cast (sint 8) (- v).
Definition b8_sub (rnd : Q -> Z) (a b : Z) : res Z := b8_add rnd a (b8_neg b).
(** binary8.hpp 95-100, 74 and 133-136. *)
Definition b8_lt (a b : Z) : bool := a <? b.
Definition b8_gt (a b : Z) : bool := a >? b.
Definition b8_le (a b : Z) : bool := a <=? b.
Definition b8_ge (a b : Z) : bool := a >=? b.
Definition b8_eq (a b : Z) : bool := a =? b.
Definition b8_ne (a b : Z) : bool := negb (a =? b).
Definition b8_is_negative (v : Z) : bool := v <? 0.
(** binary8.hpp 113-115. *)
Definition b8_to_float (v : Z) : res Z := g_get 256 b8_op2float (b8_uu v).
Definition b8_to_double (rndd : Q -> Z) (v : Z) : res Z := let! x := b8_to_float v in Ok (f_widen 8 23 11 52 rndd x).
Definition b8_to_int (v : Z) : res Z := let! x := b8_to_float v in float_to_int x.
(** binary8.hpp 77-82. *)
Definition b8_max : Z := cast (sint 8) (t_max (af_tr 5 2)).
Definition b8_min : Z := cast (sint 8) (t_min (af_tr 5 2)).
Definition b8_one : Z := cast (sint 8) (t_one (af_tr 5 2)).
Definition b8_afterone : Z := cast (sint 8) (t_one (af_tr 5 2) + 1).
Definition b8_zero : Z := 0.
(** binary8.hpp 144. *)
Definition b8_epsilon (rnd : Q -> Z) : res Z := b8_sub rnd b8_afterone b8_one.
(** binary8.hpp 153-166. *)
Definition b8_abs (v : Z) : Z := cast (sint 8) (cand v 0x7F).
Definition b8_stdmin (a b : Z) : Z := if b8_le a b then a else b.
Definition b8_stdmax (a b : Z) : Z := if b8_ge a b then a else b.
(** src/binary8.cpp 8-18: the constructors from int, float and double have empty bodies and no initialisers;
    reading the number afterwards reads an uninitialised member. *)
Definition b8_of_int (_ : Z) : res Z := UB Uninit.
Definition b8_of_float (_ : Z) : res Z := UB Uninit.
Definition b8_of_double (_ : Z) : res Z := UB Uninit.
