(** Identities and inequalities between operations. *)
From Coq Require Import ZArith QArith Qabs List Lia.
From Verif Require Import Res Traits Cfg Spec Unpacked Posit Configs Examples Ident.
Open Scope Z_scope.

(** C141. b - a and -(a - b) are the same outcome, undefined behaviour included. *)
Theorem C141_negate c a b : valid_cfg c -> exp_ok c -> add_fits c -> real c a -> real c b ->
  p_sub c b a = bind (p_sub c a b) (p_neg c).
Proof. intros V X. exact (sub_anti c V X a b). Qed.
Print Assumptions C141_negate.
(** |a| * |b| is |a * b|, and |a| / |b| is |a / b|. *)
Theorem C141_abs c a b na nb : valid_cfg c -> exp_ok c -> mul_fits c -> real c a -> real c b -> p_abs c a = Ok na -> p_abs c b = Ok nb ->
  p_mul c na nb = bind (p_mul c a b) (p_abs c) /\ (b <> 0 -> p_div c na nb = bind (p_div c a b) (p_abs c)).
Proof. exact (fun V X MF A B EA EB => conj (mul_abs c V X a b na nb MF A B EA EB) (fun N => div_abs c V X a b na nb MF A B N EA EB)). Qed.
Print Assumptions C141_abs.
(** Full statement: x + x, twice(x) and x * two() agree for every finite x, and so do half(x) and x / two(). Missing:
    the largest number of a WithNanInf type with esbits 0, a type where two() is an infinity, and the numbers +-minpos
    for the half. *)
Theorem C141_double_partial c x r s t : valid_cfg c -> exp_ok c -> mul_fits c -> real c x -> (csp c = WithNanInf -> cN c <> 3) ->
  ~ (csp c = WithNanInf /\ ces c = 0 /\ Z.abs x = maxreal c) ->
  (p_add c x x = Ok r -> p_mul c x (p_two c) = Ok s -> r = s) /\
  (p_twice c x = Ok t -> p_mul c x (p_two c) = Ok s -> t = s) /\
  (p_twice c x = Ok t -> p_add c x x = Ok r -> t = r).
Proof. intros V X. exact (double_agree c V X x r s t). Qed.
Print Assumptions C141_double_partial.
Theorem C141_half_partial c x r s : valid_cfg c -> exp_ok c -> mul_fits c -> real c x -> (csp c = WithNanInf -> cN c <> 3) -> x <> 1 -> x <> -1 ->
  p_half c x = Ok r -> p_div c x (p_two c) = Ok s -> r = s.
Proof. intros V X. exact (half_agree c V X x r s). Qed.
Print Assumptions C141_half_partial.
(** At minpos the two halves differ in every type: half gives 0, the division minpos. *)
Theorem C141_half_refuted c : valid_cfg c -> exp_ok c -> mul_fits c -> (csp c = WithNanInf -> cN c <> 3) ->
  forall r s, p_half c 1 = Ok r -> p_div c 1 (p_two c) = Ok s -> r = 0 /\ s = 1.
Proof. exact (half_refuted_all c). Qed.
Print Assumptions C141_half_refuted.
Theorem C141_double_refuted : exists c x, valid_cfg c /\ exp_ok c /\ mul_fits c /\ real c x /\
  p_add c x x = p_mul c x (p_two c) /\ p_twice c x <> p_add c x x.
Proof. exists p8ni, 126. ex. Qed.
Print Assumptions C141_double_refuted.
Example C141_case : valid_cfg p16 /\ exp_ok p16 /\ add_fits p16 /\ mul_fits p16 /\ real p16 12345 /\ real p16 777 /\
  p_sub p16 1234 20000 = Ok (-19977) /\ p_sub p16 20000 1234 = Ok 19977 /\
  p_mul p16 (-12345) 777 = Ok (-524) /\ p_mul p16 12345 777 = Ok 524 /\
  p_add p16 12345 12345 = Ok 16441 /\ p_twice p16 12345 = Ok 16441 /\ p_mul p16 12345 (p_two p16) = Ok 16441 /\
  p_half p16 12345 = Ok 8249 /\ p_div p16 12345 (p_two p16) = Ok 8249 /\ p_half p8 1 = Ok 0 /\ p_div p8 1 (p_two p8) = Ok 1.
Proof. ex. Qed.

(** C142. The triangle inequalities hold of the computed values. *)
Theorem C142_triangle c a b na nb r nr s : valid_cfg c -> exp_ok c -> add_fits c -> real c a -> real c b -> p_abs c a = Ok na -> p_abs c b = Ok nb ->
  p_add c a b = Ok r -> p_abs c r = Ok nr -> p_add c na nb = Ok s -> (value c nr <= value c s)%Q.
Proof. exact (triangle_abs c a b na nb r nr s). Qed.
Print Assumptions C142_triangle.
Theorem C142_reverse_triangle c a b na nb r nr s ns : valid_cfg c -> exp_ok c -> add_fits c -> real c a -> real c b ->
  p_abs c a = Ok na -> p_abs c b = Ok nb ->
  p_sub c na nb = Ok r -> p_abs c r = Ok nr -> p_sub c a b = Ok s -> p_abs c s = Ok ns -> (value c nr <= value c ns)%Q.
Proof. exact (rev_triangle_abs c a b na nb r nr s ns). Qed.
Print Assumptions C142_reverse_triangle.
(** Full statement: (a / b) * b and (a * b) / b are never larger in magnitude than a. Missing: a quotient or product
    below the smallest positive number (value c 1), which is rounded up to it. *)
Theorem C142_back_partial c a b q r : valid_cfg c -> exp_ok c -> mul_fits c -> real c a -> real c b -> b <> 0 ->
  ((value c 1 <= Qabs (value c a / value c b))%Q -> p_div c a b = Ok q -> p_mul c q b = Ok r -> (Qabs (value c r) <= Qabs (value c a))%Q) /\
  ((value c 1 <= Qabs (value c a * value c b))%Q -> p_mul c a b = Ok q -> p_div c q b = Ok r -> (Qabs (value c r) <= Qabs (value c a))%Q).
Proof. exact (fun V X MF A B N => conj (div_mul c V X a b q r MF A B N) (mul_div c V X a b q r MF A B N)). Qed.
Print Assumptions C142_back_partial.
Theorem C142_back_refuted : exists c a b q r, valid_cfg c /\ exp_ok c /\ mul_fits c /\ real c a /\ real c b /\ b <> 0 /\
  p_div c a b = Ok q /\ p_mul c q b = Ok r /\ (64 * value c a <= value c r)%Q.
Proof. exists p8, 1, 127, 1, 64. ex. Qed.
Print Assumptions C142_back_refuted.
(** inv(inv(x)) is at least x in magnitude. Full statement: for every nonzero number x; missing: the numbers +-minpos
    of a WithNanInf type, whose inverse is an infinity. *)
Theorem C142_inverse_partial c x r s : valid_cfg c -> exp_ok c -> mul_fits c -> real c x -> x <> 0 ->
  ~ (csp c = WithNanInf /\ (x = 1 \/ x = -1)) ->
  p_inv c x = Ok r -> p_inv c r = Ok s -> (Qabs (value c x) <= Qabs (value c s))%Q.
Proof. intros V X. exact (inv_inv c V X x r s). Qed.
Print Assumptions C142_inverse_partial.
Example C142_case : valid_cfg p16 /\ exp_ok p16 /\ add_fits p16 /\ mul_fits p16 /\ real p16 (-12345) /\ real p16 12777 /\
  p_add p16 (-12345) 12777 = Ok 3776 /\ p_add p16 12345 12777 = Ok 16657 /\ p_abs p16 (-12345) = Ok 12345 /\
  p_sub p16 12345 12777 = Ok (-3776) /\ p_sub p16 (-12345) 12777 = Ok (-16657) /\
  p_div p16 12345 17777 = Ok 10294 /\ p_mul p16 10294 17777 = Ok 12344 /\ (value p16 1 <= Qabs (value p16 12345 / value p16 17777))%Q /\
  p_inv p16 12345 = Ok 20367 /\ p_inv p16 20367 = Ok 12345.
Proof. ex. Qed.

(** C143. Full statement: both ways of computing a midpoint stay between the two numbers. a + (b - a).half() does. *)
Theorem C143_midpoint c a b d h m : valid_cfg c -> exp_ok c -> add_fits c -> real c a -> real c b -> (value c a <= value c b)%Q ->
  p_sub c b a = Ok d -> p_half c d = Ok h -> p_add c a h = Ok m -> (value c a <= value c m)%Q /\ (value c m <= value c b)%Q.
Proof. intros V X. exact (midpoint c V X a b d h m). Qed.
Print Assumptions C143_midpoint.
(** (a + b).half() never exceeds both in magnitude. *)
Theorem C143_half_sum c a b s h : valid_cfg c -> exp_ok c -> add_fits c -> real c a -> real c b -> p_add c a b = Ok s -> p_half c s = Ok h ->
  (Qabs (value c h) <= Qabs (value c a))%Q \/ (Qabs (value c h) <= Qabs (value c b))%Q.
Proof. intros V X. exact (half_sum_max c V X a b s h). Qed.
Print Assumptions C143_half_sum.
(** It stays above the smaller of two positive numbers when twice that number, u, is a posit. Missing: other numbers. *)
Theorem C143_half_sum_partial c a b u s h : valid_cfg c -> exp_ok c -> mul_fits c -> real c a -> real c b -> real c u -> 0 < a ->
  (value c a <= value c b)%Q -> (value c u == 2 * value c a)%Q -> p_add c a b = Ok s -> p_half c s = Ok h -> (value c a <= value c h)%Q.
Proof. intros V X. exact (half_sum_min c V X a b u s h). Qed.
Print Assumptions C143_half_sum_partial.
Theorem C143_half_sum_refuted : exists c a s h, valid_cfg c /\ exp_ok c /\ add_fits c /\ roomy c /\ real c a /\ (0 < value c a)%Q /\
  p_add c a a = Ok s /\ p_half c s = Ok h /\ (value c h < value c a)%Q.
Proof. exists p8, 65, 96, 64. ex. Qed.
Print Assumptions C143_half_sum_refuted.
Example C143_case : valid_cfg p16 /\ exp_ok p16 /\ add_fits p16 /\ real p16 (-12345) /\ real p16 17777 /\
  (value p16 (-12345) <= value p16 17777)%Q /\ p_sub p16 17777 (-12345) = Ok 19853 /\ p_half p16 19853 = Ok 15757 /\
  p_add p16 (-12345) 15757 = Ok 10920 /\ p_add p8 48 60 = Ok 86 /\ p_half p8 86 = Ok 54 /\ (value p8 80 == 2 * value p8 48)%Q.
Proof. ex. Qed.
