(** dot and fma without undefined behaviour. *)
From Coq Require Import ZArith QArith Qabs List Lia Permutation.
From Verif Require Import Res Traits Cfg Spec SpecDot Unpacked Posit Posit2 QPow Configs Examples DotPos DotMix DotIff.
Import ListNotations.
Open Scope Z_scope.

(** C135. Full statement: dot over vectors of numbers, and fma of numbers, are free of undefined behaviour. Proved for
    dot when twice the range of the format, plus log2 of the length less one (or the bits of FT less one, if that is smaller;
    but at least 2 if FT has 32 or 64 bits), stays below max(32, bits of FT). The result then is the truncation of a number close
    to the exact sum of products. *)
Theorem C135_dot_partial c l : valid_cfg c -> exp_ok c -> frac_fits c -> roomy c -> (cH c = 8 -> cN c + ces c < 8 -> cF c <= 32) ->
  dot_real c l -> Z.of_nat (length l) < 2 ^ 31 ->
  2 * (cN c - 2 + maxk c) * 2 ^ ces c + Z.max (Z.min (Z.log2 (Z.of_nat (length l) - 1)) (cF c - 1)) (if cF c <? 32 then 0 else 2) < Z.max 32 (cF c) ->
  exists r x, p_dot c l = Ok r /\ rounds_tz c x r /\
    (Qabs (x - dot_exact c l) <= ((1 + pow2 (4 - cF c)) ^ Z.of_nat (length l) - 1) * dot_magnitude c l)%Q /\
    (2 * (cN c - 2 + maxk c) * 2 ^ ces c + Z.log2 (Z.of_nat (length l) - 1) + 2 <= cF c -> (x == dot_exact c l)%Q).
Proof. exact (dot_mixed c l). Qed.
Print Assumptions C135_dot_partial.
(** When no product is negative the 2 is not needed, and the rounded number is not above the exact sum. *)
Theorem C135_dot_nonnegative_partial c l : valid_cfg c -> exp_ok c -> frac_fits c -> roomy c -> (cH c = 8 -> cN c + ces c < 8 -> cF c <= 32) ->
  dot_real c l -> Forall (fun p => (0 <= value c (fst p) * value c (snd p))%Q) l -> Z.of_nat (length l) < 2 ^ 31 ->
  2 * (cN c - 2 + maxk c) * 2 ^ ces c + Z.min (Z.log2 (Z.of_nat (length l) - 1)) (cF c - 1) < Z.max 32 (cF c) ->
  exists r x, p_dot c l = Ok r /\ rounds_tz c x r /\ (x <= dot_exact c l)%Q /\
    (dot_exact c l - x <= ((1 + pow2 (4 - cF c)) ^ Z.of_nat (length l) - 1) * dot_exact c l)%Q.
Proof. exact (dot_positive_defined c l). Qed.
Print Assumptions C135_dot_nonnegative_partial.
(** For the 8 bit type without exponent bits every vector of numbers is covered. *)
Theorem C135_dot_posit8 l : dot_real p8 l -> Z.of_nat (length l) < 2 ^ 31 -> exists r, p_dot p8 l = Ok r /\ real p8 r.
Proof. exact (dot_posit8_all l). Qed.
Print Assumptions C135_dot_posit8.
(** The bound for vectors without negative products is exact: all those of up to n elements are free of undefined behaviour
    only if it holds at n. *)
Theorem C135_dot_bound c n : valid_cfg c -> exp_ok c -> frac_fits c -> roomy c -> (cH c = 8 -> cN c + ces c < 8 -> cF c <= 32) -> 2 <= n < 2 ^ 31 ->
  ((forall l, dot_real c l -> Forall (fun p => (0 <= value c (fst p) * value c (snd p))%Q) l -> Z.of_nat (length l) <= n -> exists r, p_dot c l = Ok r) <->
   2 * (cN c - 2 + maxk c) * 2 ^ ces c + Z.min (Z.log2 (n - 1)) (cF c - 1) < Z.max 32 (cF c)).
Proof. exact (dot_defined_iff c n). Qed.
Print Assumptions C135_dot_bound.
(** And so is the bound for vectors of any signs, from 3 elements on. *)
Theorem C135_dot_bound_signs c n : valid_cfg c -> exp_ok c -> frac_fits c -> roomy c -> (cH c = 8 -> cN c + ces c < 8 -> cF c <= 32) -> 3 <= n < 2 ^ 31 ->
  ((forall l, dot_real c l -> Z.of_nat (length l) <= n -> exists r, p_dot c l = Ok r) <->
   2 * (cN c - 2 + maxk c) * 2 ^ ces c + Z.max (Z.min (Z.log2 (n - 1)) (cF c - 1)) (if cF c <? 32 then 0 else 2) < Z.max 32 (cF c)).
Proof. exact (dot_defined_iff_any c n). Qed.
Print Assumptions C135_dot_bound_signs.
(** The range condition matters: in a 6 bit type with one exponent bit two products suffice. *)
Theorem C135_dot_refuted : exists l, dot_real x1 l /\ Forall (fun p => (0 <= value x1 (fst p) * value x1 (snd p))%Q) l /\ p_dot x1 l = UB ShiftCount.
Proof. exact (ex_intro _ _ dot_long). Qed.
Print Assumptions C135_dot_refuted.
(** fma, when FT holds exact products: for every three numbers exactly when three half ranges stay below max(32, bits of FT). *)
Theorem C135_fma c : valid_cfg c -> exp_ok c -> fma_fits c -> roomy c ->
  ((forall a b d, real c a -> real c b -> real c d -> exists r, p_fma c a b d = Ok r) <-> (2 * (cN c - 2) + maxk c) * 2 ^ ces c < Z.max 32 (cF c)).
Proof. exact (fma_defined c). Qed.
Print Assumptions C135_fma.
Example C135_ex : valid_cfg p8 /\ exp_ok p8 /\ frac_fits p8 /\ roomy p8 /\ (cH p8 = 8 -> cN p8 + ces p8 < 8 -> cF p8 <= 32) /\
  dot_real p8 [(100, 90); (-3, -64)] /\ Forall (fun p => (0 <= value p8 (fst p) * value p8 (snd p))%Q) [(100, 90); (-3, -64)] /\
  2 * (cN p8 - 2 + maxk p8) * 2 ^ ces p8 + Z.max (Z.min (Z.log2 (2 - 1)) (cF p8 - 1)) (if cF p8 <? 32 then 0 else 2) < Z.max 32 (cF p8) /\ p_dot p8 [(100, 90); (-3, -64)] = Ok 113 /\
  valid_cfg x1 /\ exp_ok x1 /\ fma_fits x1 /\ roomy x1 /\ (2 * (cN x1 - 2) + maxk x1) * 2 ^ ces x1 < Z.max 32 (cF x1) /\
  valid_cfg p16w /\ exp_ok p16w /\ fma_fits p16w /\ roomy p16w /\ ~ (2 * (cN p16w - 2) + maxk p16w) * 2 ^ ces p16w < Z.max 32 (cF p16w).
Proof.
  conj; try valid_hyp; try compute_hyp.
  - constructor; [split; compute_hyp|]. constructor; [split; compute_hyp|constructor].
  - constructor; [compute_hyp|]. constructor; [compute_hyp|constructor].
Qed.
(** A 9 bit type in 16 bits: 16 products are fine, 17 are not. The 8 bit type with a 32 bit FT: 256 are fine, 257 are not. *)
Example C135_bound_ex : let fine c n := 2 * (cN c - 2 + maxk c) * 2 ^ ces c + Z.max (Z.min (Z.log2 (n - 1)) (cF c - 1)) (if cF c <? 32 then 0 else 2) < Z.max 32 (cF c) in
  (let c := Cfg 16 9 0 16 WithNan in valid_cfg c /\ exp_ok c /\ frac_fits c /\ roomy c /\ (cH c = 8 -> cN c + ces c < 8 -> cF c <= 32) /\ fine c 16 /\ ~ fine c 17) /\
  (let c := Cfg 8 8 0 32 WithNan in valid_cfg c /\ exp_ok c /\ frac_fits c /\ roomy c /\ (cH c = 8 -> cN c + ces c < 8 -> cF c <= 32) /\ fine c 256 /\ ~ fine c 257).
Proof. cbv zeta. conj; try cfg_tac; compute_hyp. Qed.

(** C139. Full statement: dot, fma and sums of two products round once: the result is the exact value truncated to a posit.
    Proved when twice the range of the format plus log2 of the number of products less one (at least 1), plus 2, is at most the bits of FT. *)
Theorem C139_dot_partial c l : valid_cfg c -> exp_ok c -> frac_fits c -> roomy c -> (cH c = 8 -> cN c + ces c < 8 -> cF c <= 32) ->
  dot_real c l -> Z.of_nat (length l) < 2 ^ 31 ->
  2 * (cN c - 2 + maxk c) * 2 ^ ces c + Z.max 1 (Z.log2 (Z.of_nat (length l) - 1)) + 2 <= cF c ->
  exists r, p_dot c l = Ok r /\ rounds_tz c (dot_exact c l) r.
Proof. exact (dot_rounds c l). Qed.
Print Assumptions C139_dot_partial.
(** The order of the elements then does not matter. *)
Theorem C139_dot_order_partial c l l' : valid_cfg c -> exp_ok c -> frac_fits c -> roomy c -> (cH c = 8 -> cN c + ces c < 8 -> cF c <= 32) ->
  dot_real c l -> Z.of_nat (length l) < 2 ^ 31 ->
  2 * (cN c - 2 + maxk c) * 2 ^ ces c + Z.max 1 (Z.log2 (Z.of_nat (length l) - 1)) + 2 <= cF c ->
  Permutation l l' -> p_dot c l = p_dot c l'.
Proof. exact (dot_perm c l l'). Qed.
Print Assumptions C139_dot_order_partial.
(** The 8 bit type with a 64 bit FT: vectors of every length. *)
Theorem C139_dot_posit8 l : dot_real (Cfg 8 8 0 64 WithNan) l -> Z.of_nat (length l) < 2 ^ 31 ->
  exists r, p_dot (Cfg 8 8 0 64 WithNan) l = Ok r /\ rounds_tz (Cfg 8 8 0 64 WithNan) (dot_exact (Cfg 8 8 0 64 WithNan) l) r.
Proof. exact (dot_rounds8 l). Qed.
Print Assumptions C139_dot_posit8.
Theorem C139_fma_partial c a b d : valid_cfg c -> exp_ok c -> roomy c -> (cH c = 8 -> cN c + ces c < 8 -> cF c <= 32) ->
  real c a -> real c b -> real c d -> 2 * (cN c - 2 + maxk c) * 2 ^ ces c + 2 < cF c ->
  exists r, p_fma c a b d = Ok r /\ rounds_tz c (value c a * value c b + value c d) r.
Proof. exact (fma_rounds c a b d). Qed.
Print Assumptions C139_fma_partial.
Theorem C139_sum_of_products_partial c a b d g : valid_cfg c -> exp_ok c -> roomy c -> (cH c = 8 -> cN c + ces c < 8 -> cF c <= 32) ->
  real c a -> real c b -> real c d -> real c g -> 2 * (cN c - 2 + maxk c) * 2 ^ ces c + 2 < cF c ->
  exists r, pm_add c (a, b) (d, g) = Ok r /\ rounds_tz c (value c a * value c b + value c d * value c g) r.
Proof. exact (sum_rounds c a b d g). Qed.
Print Assumptions C139_sum_of_products_partial.
(** In an 8 bit FT a small product is lost between two large ones that cancel, and the order matters. *)
Theorem C139_dot_refuted : exists l l', dot_real p8 l /\ Permutation l l' /\ p_dot p8 l = Ok 0 /\ p_dot p8 l' = Ok 1 /\ ~ rounds_tz p8 (dot_exact p8 l) 0.
Proof. exact (ex_intro _ _ (ex_intro _ _ (conj cancel_real (conj cancel_perm cancel_dot)))). Qed.
Print Assumptions C139_dot_refuted.
Example C139_ex : let c := Cfg 8 8 0 32 WithNan in valid_cfg c /\ exp_ok c /\ frac_fits c /\ roomy c /\ (cH c = 8 -> cN c + ces c < 8 -> cF c <= 32) /\
  dot_real c [(126, 126); (1, 1); (-126, 126)] /\ 2 * (cN c - 2 + maxk c) * 2 ^ ces c + Z.max 1 (Z.log2 (3 - 1)) + 2 <= cF c /\ 2 * (cN c - 2 + maxk c) * 2 ^ ces c + Z.max 1 (Z.log2 (128 - 1)) + 2 <= cF c /\
  p_dot c [(126, 126); (1, 1); (-126, 126)] = Ok 1 /\ 2 * (cN c - 2 + maxk c) * 2 ^ ces c + 2 < cF c /\ real c 77 /\ real c 45 /\ real c (-50) /\ real c 66 /\ p_fma c 77 45 (-50) = Ok 13 /\ pm_add c (77, 45) (-50, 66) = Ok 10.
Proof.
  cbv zeta. conj; try cfg_tac; try compute_hyp.
  repeat (constructor; [split; compute_hyp|]). constructor.
Qed.
