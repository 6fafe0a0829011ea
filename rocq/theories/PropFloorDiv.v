(** C163. FLOORDIV<T>(a, b) is the quotient rounded down. *)
From Coq Require Import ZArith.
From Verif Require Import Res CInt Cfg Posit Configs Examples FloorDiv FloorDivProof.
Open Scope Z_scope.

(** Full statement: for every divisor other than zero the result q is the quotient a/b rounded down. It holds for
    positive divisors; for negative ones see C163_negative_refuted. [t] is any integer type. *)
Theorem C163_floor_partial t a b : 8 <= iw t -> fits t a = true -> fits t b = true -> 0 < b ->
  exists q, floordiv t a b = Ok q /\ fits t q = true /\ q * b <= a < (q + 1) * b.
Proof. exact (floordiv_floor t a b). Qed.
Print Assumptions C163_floor_partial.
(** For a negative divisor the result is the quotient rounded down only when the division is exact. Otherwise it is one
    too large for positive and one too small for negative dividends. *)
Theorem C163_negative_refuted t a b : 8 <= iw t -> isg t = true -> fits t a = true -> fits t b = true -> b < 0 ->
  ~ (a = min_of t /\ b = -1) ->
  exists q, floordiv t a b = Ok q /\ ((q + 1) * b < a <= q * b <-> Z.divide b a) /\
    (~ Z.divide b a -> (0 < a -> (q - 1 + 1) * b < a <= (q - 1) * b) /\ (a < 0 -> (q + 1 + 1) * b < a <= (q + 1) * b)).
Proof. exact (floordiv_neg t a b). Qed.
Print Assumptions C163_negative_refuted.
(** It is undefined for a divisor of zero, and for the least number of a type of at least 32 bits over -1. *)
Theorem C163_zero t a : floordiv t a 0 = UB DivZero.
Proof. exact (floordiv_undef t a). Qed.
Print Assumptions C163_zero.
Theorem C163_overflow t : 32 <= iw t -> isg t = true -> floordiv t (min_of t) (-1) = UB SignedOverflow.
Proof. exact (floordiv_over t). Qed.
Print Assumptions C163_overflow.
(** The regime of an exponent is its FLOORDIV by 2^es. *)
Theorem C163_regime c e lo : valid_cfg c -> minexponent c = Ok lo -> lo <= e <= - lo ->
  exists reg ex, split_reg_exp c e = Ok (reg, ex) /\ floordiv (tE c) e (2 ^ ces c) = Ok reg.
Proof. exact (floordiv_split c e lo). Qed.
Print Assumptions C163_regime.
Example C163_ex : fits (sint 32) (-7) = true /\ fits (sint 32) 2 = true /\ floordiv (sint 32) (-7) 2 = Ok (-4) /\
  floordiv (sint 32) 7 (-2) = Ok (-3) /\ floordiv (sint 32) (-7) (-2) = Ok 2 /\ floordiv (sint 8) (-128) (-1) = Ok (-128) /\
  valid_cfg p16 /\ minexponent p16 = Ok (-28) /\ split_reg_exp p16 (-7) = Ok (-4, 1) /\ floordiv (tE p16) (-7) 2 = Ok (-4).
Proof. ex. Qed.
