(** Accumulated rounding errors. *)
From Coq Require Import ZArith QArith Qabs List Lia.
From Verif Require Import Res Traits Cfg Spec SpecAcc SpecProg SpecDot SpecErr Unpacked Posit Posit2 QPow Configs Examples Err1 Err2 Err3.
Import ListNotations.
Open Scope Z_scope.

(** C133. A program of +, * and / over positive numbers, n roundings deep, whose steps all give results of a size at
    which the type keeps f fraction bits, is off by a factor of at most (1 - 2^-f)^n either way; without division it
    never exceeds the exact result. *)
Theorem C133_programs c f e r : valid_cfg c -> exp_ok c -> add_fits c -> 1 <= f -> positive c e -> precise_steps c f e -> eval c e = Ok r ->
  real c r /\ (0 < value c r)%Q /\
  ((1 - pow2 (- f)) ^ Z.of_nat (roundings e) * exact c e <= value c r)%Q /\
  ((1 - pow2 (- f)) ^ Z.of_nat (roundings e) * value c r <= exact c e)%Q /\
  (no_division e -> (value c r <= exact c e)%Q).
Proof. exact (program_bounds c f e r). Qed.
Print Assumptions C133_programs.
(** The claim is about programs that do not subtract: after a subtraction the result may have no digit right although
    every step is precise. *)
Theorem C133_not_with_subtraction : exists a b, real p16 a /\ real p16 b /\ (0 < value p16 a)%Q /\ (0 < value p16 b)%Q /\
  precise p16 10 (value p16 a + value p16 b) /\ eval p16 (Sub (Add (Lit a) (Lit b)) (Lit a)) = Ok 0.
Proof. exact cancellation. Qed.
Print Assumptions C133_not_with_subtraction.
(** (3 + 7) * 10 / 7 with the 16 bit type. *)
Example C133_ex : let e := Div (Mul (Add (OfInt 3) (OfInt 7)) (OfInt 10)) (OfInt 7) in
  valid_cfg p16_32 /\ exp_ok p16_32 /\ add_fits p16_32 /\ positive p16_32 e /\ precise_steps p16_32 8 e /\ (exists r, eval p16_32 e = Ok r) /\ roundings e = 6%nat /\
  let e' := Add (Mul (Lit 100) (OfInt 3)) (Lit 20000) in positive p16_32 e' /\ precise_steps p16_32 4 e' /\ no_division e' /\ exists r, eval p16_32 e' = Ok r.
Proof. exact example_program. Qed.

(** C134. A running sum of n numbers, added one after the other with every exact result of a size at which the type
    keeps f fraction bits, is off by at most (1 + 2^-f)^n - 1 times the sum of the absolute values. *)
Theorem C134_sum c f s l r : valid_cfg c -> exp_ok c -> add_fits c -> 0 <= f -> real c s -> Forall (real c) l -> sum_precise c f s l -> run_sum c s l = Ok r ->
  real c r /\ (Qabs (value c r - (value c s + sum_exact c l)) <= ((1 + pow2 (- f)) ^ Z.of_nat (length l) - 1) * (Qabs (value c s) + sum_magnitude c l))%Q.
Proof. exact (fun V X AF F0 => sum_error c V X AF f F0 l s r). Qed.
Print Assumptions C134_sum.
(** The same for sums of products. *)
Theorem C134_dot c f s l r : valid_cfg c -> exp_ok c -> add_fits c -> 0 <= f -> real c s -> dot_real c l -> dot_precise c f s l -> run_dot c s l = Ok r ->
  real c r /\ (Qabs (value c r - (value c s + dot_exact c l)) <=
    ((1 + pow2 (- f)) ^ Z.of_nat (length l) - 1) * Qabs (value c s) + ((1 + pow2 (- f)) ^ Z.of_nat (S (length l)) - 1) * dot_magnitude c l)%Q.
Proof. exact (fun V X AF F0 => dot_error c V X AF f F0 l s r). Qed.
Print Assumptions C134_dot.
(** For numbers that are zero or at least 2^lo, with a total below 2^(hi+1), nothing has to be known about the
    intermediate results: the sum is defined, not above the exact one, and at most a factor (1 - 2^-f)^n below it. *)
Theorem C134_positive c f lo hi s l : valid_cfg c -> exp_ok c -> mul_fits c -> roomy c -> 1 <= f -> f <= fracbits c lo -> f <= fracbits c hi -> hi - lo < Z.max 32 (cF c) ->
  real c s -> Forall (real c) l -> Forall (fun x => x = 0 \/ (pow2 lo <= value c x)%Q) (s :: l) -> (value c s + sum_exact c l < pow2 (hi + 1))%Q ->
  exists r, run_sum c s l = Ok r /\ real c r /\ (value c r <= value c s + sum_exact c l)%Q /\
    ((1 - pow2 (- f)) ^ Z.of_nat (length l) * (value c s + sum_exact c l) <= value c r)%Q.
Proof. exact (sum_range c f lo hi s l). Qed.
Print Assumptions C134_positive.
Theorem C134_positive_dot c f lo hi s l : valid_cfg c -> exp_ok c -> mul_fits c -> roomy c -> 1 <= f -> f <= fracbits c lo -> f <= fracbits c hi -> hi - lo < Z.max 32 (cF c) ->
  real c s -> s = 0 \/ (pow2 lo <= value c s)%Q -> dot_real c l ->
  Forall (fun p => 0 <= fst p /\ 0 <= snd p /\ (fst p = 0 \/ snd p = 0 \/ (pow2 lo <= value c (fst p) * value c (snd p))%Q)) l -> (value c s + dot_exact c l < pow2 (hi + 1))%Q ->
  exists r, run_dot c s l = Ok r /\ real c r /\ (value c r <= value c s + dot_exact c l)%Q /\
    ((1 - pow2 (- f)) ^ Z.of_nat (length l) * (value c s + (1 - pow2 (- f)) * dot_exact c l) <= value c r)%Q.
Proof. exact (dot_range c f lo hi s l). Qed.
Print Assumptions C134_positive_dot.
(** 3 - 7 + 1/3, 3*7 + 7*(-1), and positive sums between 2^-4 and 2^8. *)
Example C134_ex : valid_cfg p16_32 /\ exp_ok p16_32 /\ add_fits p16_32 /\ mul_fits p16_32 /\ roomy p16_32 /\ 7 <= fracbits p16_32 (-4) /\ 7 <= fracbits p16_32 7 /\ 7 - -4 < Z.max 32 (cF p16_32) /\
  real p16_32 22528 /\ Forall (real p16_32) [-26112; 9557] /\ sum_precise p16_32 8 22528 [-26112; 9557] /\ run_sum p16_32 22528 [-26112; 9557] = Ok (-23893) /\
  dot_real p16_32 [(22528, 26112); (26112, -16384)] /\ dot_precise p16_32 8 0 [(22528, 26112); (26112, -16384)] /\ run_dot p16_32 0 [(22528, 26112); (26112, -16384)] = Ok 28160 /\
  Forall (fun x => x = 0 \/ (pow2 (-4) <= value p16_32 x)%Q) [22528; 0; 26112] /\ (value p16_32 22528 + sum_exact p16_32 [0; 26112]%Z < pow2 8)%Q /\
  Forall (fun p => 0 <= fst p /\ 0 <= snd p /\ (fst p = 0 \/ snd p = 0 \/ (pow2 (-4) <= value p16_32 (fst p) * value p16_32 (snd p))%Q)) [(22528, 26112); (0, 5)] /\ (value p16_32 22528 + dot_exact p16_32 [(22528, 26112); (0, 5)]%Z < pow2 8)%Q.
Proof. exact example_sums. Qed.
