(** Error of the dot product, monotone addition, conversion between posit formats: C32, C58, C63, C93, C98. *)
From Coq Require Import ZArith QArith Qabs List.
From Verif Require Import Res Cfg Spec SpecDot Unpacked Posit Posit2 Configs Examples Dot DotFma Mono Convert.
Import ListNotations.
Open Scope Z_scope.

(** C32. dot over any number of pairs (its length argument is an int) is the truncation of a number [x] close
    to the exact sum of products: the error is at most ((1+u)^n - 1) times the sum of the magnitudes, with
    u = 2^(4 - bits of FT). Otherwise it is undefined, by an out of range shift. *)
Theorem C32_dot_error c l :
  valid_cfg c -> exp_ok c -> frac_fits c -> (cH c = 8 -> cN c + ces c < 8 -> cF c <= 32) ->
  dot_real c l -> Z.of_nat (length l) < 2 ^ 31 ->
  p_dot c l = UB ShiftCount \/
  exists r x, p_dot c l = Ok r /\ rounds_tz c x r /\
    (Qabs (x - dot_exact c l) <= ((1 + pow2 (4 - cF c)) ^ Z.of_nat (length l) - 1) * dot_magnitude c l)%Q.
Proof. exact (fun V X FF H8 => dot_error c V FF H8 l X). Qed.
Print Assumptions C32_dot_error.
Example C32_error_ex : valid_cfg p16 /\ exp_ok p16 /\ frac_fits p16 /\ dot_real p16 [(20001, 12345); (-777, 5000); (16384, -20001)] /\
  p_dot p16 [(20001, 12345); (-777, 5000); (16384, -20001)] = Ok (-15799).
Proof. conj; try ex. repeat (constructor; [cbn [fst snd]; ex|]). constructor. Qed.
(** C63. fma in any FT that holds the operands with two spare bits, even where the product does not fit: the result is
    the truncation of a number x within ((1+u)^2 - 1)(|ab| + |d|) of ab+d, with u = 2^(4 - bits of FT). *)
Theorem C63_fma_error c a b d :
  valid_cfg c -> exp_ok c -> mul_fits c -> (cH c = 8 -> cN c + ces c < 8 -> cF c <= 32) -> real c a -> real c b -> real c d ->
  p_fma c a b d = UB ShiftCount \/
  exists r x, p_fma c a b d = Ok r /\ rounds_tz c x r /\
    (Qabs (x - (value c a * value c b + value c d)) <=
     ((1 + pow2 (4 - cF c)) ^ 2 - 1) * (Qabs (value c a * value c b) + Qabs (value c d)))%Q.
Proof. exact (fma_error c a b d). Qed.
Print Assumptions C63_fma_error.
(** C93. The same for a sum of two products. *)
Theorem C93_sum_error c a b d g :
  valid_cfg c -> exp_ok c -> frac_fits c -> (cH c = 8 -> cN c + ces c < 8 -> cF c <= 32) -> real c a -> real c b -> real c d -> real c g ->
  pm_add c (a, b) (d, g) = UB ShiftCount \/
  exists r x, pm_add c (a, b) (d, g) = Ok r /\ rounds_tz c x r /\
    (Qabs (x - (value c a * value c b + value c d * value c g)) <=
     ((1 + pow2 (4 - cF c)) ^ 2 - 1) * (Qabs (value c a * value c b) + Qabs (value c d * value c g)))%Q.
Proof. exact (two_products_error c a b d g). Qed.
Print Assumptions C93_sum_error.
Example C63_error_ex : valid_cfg p16 /\ exp_ok p16 /\ mul_fits p16 /\ frac_fits p16 /\ ~ fma_fits p16 /\ real p16 20001 /\ real p16 12345 /\ real p16 (-777) /\
  p_fma p16 20001 12345 (-777) = Ok 15995 /\ pm_add p16 (20001, 12345) (-777, 5000) = Ok 16011.
Proof. ex. Qed.

(** C58. Addition and subtraction are monotone for operands of any signs. *)
Theorem C58_add_monotone c a b d :
  valid_cfg c -> exp_ok c -> mul_fits c -> real c a -> real c b -> real c d -> (value c a <= value c b)%Q ->
  (forall r s, p_add c a d = Ok r -> p_add c b d = Ok s -> p_le c r s = true) /\
  (forall r s, p_add c d a = Ok r -> p_add c d b = Ok s -> p_le c r s = true) /\
  (forall r s, p_sub c a d = Ok r -> p_sub c b d = Ok s -> p_le c r s = true) /\
  (forall r s, p_sub c d b = Ok r -> p_sub c d a = Ok s -> p_le c r s = true).
Proof. exact (fun V X MF => add_monotone c V X MF a b d). Qed.
Print Assumptions C58_add_monotone.
Example C58_add_ex : valid_cfg p16 /\ exp_ok p16 /\ mul_fits p16 /\ real p16 20001 /\ real p16 20005 /\ real p16 (-12345) /\
  (value p16 20001 <= value p16 20005)%Q /\ p_add p16 20001 (-12345) = Ok 17924 /\ p_add p16 20005 (-12345) = Ok 17928.
Proof. ex. Qed.

(** C98. Conversion to another posit type with the same Unpacked type truncates toward zero, saturating; [room]
    says exactly when it is defined. Special values become the ones of the target. *)
Theorem C98_convert c c' v :
  valid_cfg c -> valid_cfg c' -> exp_ok c' -> frac_fits c -> same_unpacked c c' -> real c v ->
  (room c' (value c v) -> exists r, p_convert c c' v = Ok r /\ rounds_tz c' (value c v) r) /\
  (~ room c' (value c v) -> p_convert c c' v = UB ShiftCount).
Proof. exact (convert_total c c' v). Qed.
Print Assumptions C98_convert.
Theorem C98_convert_specials c c' v :
  valid_cfg c -> valid_cfg c' ->
  p_convert c c' 0 = Ok 0 /\ (is_nan c v -> p_convert c c' v = Ok (exceptional c')) /\
  (is_inf c v -> p_convert c c' v = Ok (inf_of c' (v <? 0))).
Proof. exact (convert_specials c c' v). Qed.
Print Assumptions C98_convert_specials.
(** It keeps the order. *)
Theorem C98_convert_order c c' v w r s :
  valid_cfg c -> valid_cfg c' -> exp_ok c' -> frac_fits c -> same_unpacked c c' -> real c v -> real c w ->
  (value c v <= value c w)%Q -> p_convert c c' v = Ok r -> p_convert c c' w = Ok s -> (value c' r <= value c' s)%Q.
Proof. exact (convert_mono c c' v w r s). Qed.
Print Assumptions C98_convert_order.
(** A number that the target has is converted exactly, and converting back gives it again. *)
Theorem C98_round_trip c c' v w r :
  valid_cfg c -> valid_cfg c' -> exp_ok c -> exp_ok c' -> frac_fits c -> frac_fits c' -> same_unpacked c c' -> real c v ->
  (exists x, real c' x /\ (value c' x == value c v)%Q) -> p_convert c c' v = Ok w -> p_convert c' c w = Ok r ->
  (value c' w == value c v)%Q /\ r = v.
Proof. exact (convert_back c c' v w r). Qed.
Print Assumptions C98_round_trip.
(** With the same esbits, more bits means zeros appended: always exact. *)
Theorem C98_widen c c' v r :
  valid_cfg c -> valid_cfg c' -> exp_ok c' -> frac_fits c -> same_unpacked c c' -> ces c = ces c' -> cN c <= cN c' ->
  csp c = WithNanInf \/ csp c' <> WithNanInf \/ cN c < cN c' -> real c v ->
  (value c' (v * 2 ^ (cN c' - cN c)) == value c v)%Q /\ real c' (v * 2 ^ (cN c' - cN c)) /\
  (p_convert c c' v = Ok r -> r = v * 2 ^ (cN c' - cN c)).
Proof. exact (convert_widen c c' v r). Qed.
Print Assumptions C98_widen.
(** Converting through a format that has every number of the last one gives what a direct conversion gives. *)
Theorem C98_two_steps c1 c2 c3 v w r s :
  valid_cfg c1 -> valid_cfg c2 -> valid_cfg c3 -> exp_ok c2 -> exp_ok c3 -> frac_fits c1 -> frac_fits c2 ->
  same_unpacked c1 c2 -> same_unpacked c2 c3 -> real c1 v ->
  (forall x, real c3 x -> exists u, real c2 u /\ (value c2 u == value c3 x)%Q) ->
  p_convert c1 c2 v = Ok w -> p_convert c2 c3 w = Ok r -> p_convert c1 c3 v = Ok s -> r = s.
Proof. exact (convert_two c1 c2 c3 v w r s). Qed.
Print Assumptions C98_two_steps.
Example C98_ex : let q14 := Cfg 16 14 0 16 WithNan in let q12 := Cfg 16 12 0 16 WithNan in
  valid_cfg q14 /\ valid_cfg q12 /\ exp_ok q12 /\ frac_fits q14 /\ same_unpacked q14 q12 /\ same_unpacked q12 p10 /\ real q14 5001 /\
  room q12 (value q14 5001) /\ p_convert q14 q12 5001 = Ok 1250 /\ p_convert q12 p10 1250 = Ok 312 /\ p_convert q14 p10 5001 = Ok 312 /\
  p_convert p10 q12 312 = Ok (312 * 2 ^ (cN q12 - cN p10)) /\ p_convert q12 p10 1248 = Ok 312.
Proof. cbv zeta. conj; try ex; try cfg_tac. apply (room_by _ _ 0); ex. Qed.
(** The hypothesis of C98_two_steps, for the same esbits. *)
Example C98_two_steps_ex x : real p10 x -> exists u, real (Cfg 16 12 0 16 WithNan) u /\ (value (Cfg 16 12 0 16 WithNan) u == value p10 x)%Q.
Proof.
  intros R. exists (x * 2 ^ (12 - 10)). destruct (C98_widen p10 (Cfg 16 12 0 16 WithNan) x 0) as (A & B & _); try ex; try cfg_tac; try assumption.
  split; assumption.
Qed.
