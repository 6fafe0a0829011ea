(** Properties of the arithmetic operators: C12-C22, C31, C32, C56-C58, C62-C64. *)
From Coq Require Import ZArith QArith Qabs List.
From Verif Require Import Res Cfg Spec Unpacked Posit Configs Examples Specials Laws Final1 Final2 Final3 OpsAdd Ops Fma Tight1.
Import ListNotations.
Open Scope Z_scope.

(** C12. Product: truncation toward zero with saturation of the exact product. [room] says exactly
    when the final packing is defined. *)
Theorem C12_multiply c a b :
  valid_cfg c -> exp_ok c -> mul_fits c -> real c a -> real c b ->
  (room c (value c a * value c b) ->
     exists r, p_mul c a b = Ok r /\ rounds_tz c (value c a * value c b) r) /\
  (~ room c (value c a * value c b) -> p_mul c a b = UB ShiftCount).
Proof. exact (mul_total c a b). Qed.
Print Assumptions C12_multiply.
Example C12_ex : valid_cfg p16 /\ exp_ok p16 /\ mul_fits p16 /\ real p16 20001 /\ real p16 (-12345) /\ roomy p16 /\
  p_mul p16 20001 (-12345) = Ok (-16012).
Proof. ex. Qed.
Example C12_ex_room : room p32 (value p32 1500000000 * value p32 1500000000) /\ exp_ok p32 /\ mul_fits p32.
Proof. conj; [apply (room_by _ _ 6); ex|ex|ex]. Qed.

(** [mul_fits] is needed: with an FT of exactly the fraction bits 1*x is not x. *)
Theorem C12_narrow_refuted : exists c x r, valid_cfg c /\ exp_ok c /\ frac_fits c /\ roomy c /\ real c x /\
  p_mul c (p_one c) x = Ok r /\ r <> x /\ ~ rounds_tz c (value c (p_one c) * value c x) r.
Proof. exact mul_narrow. Qed.
Print Assumptions C12_narrow_refuted.

(** C13. Quotient. *)
Theorem C13_divide c a b :
  valid_cfg c -> exp_ok c -> mul_fits c -> real c a -> real c b -> b <> 0 ->
  (room c (value c a / value c b) ->
     exists r, p_div c a b = Ok r /\ rounds_tz c (value c a / value c b) r) /\
  (~ room c (value c a / value c b) -> p_div c a b = UB ShiftCount).
Proof. exact (div_total c a b). Qed.
Print Assumptions C13_divide.
Example C13_ex : valid_cfg p16 /\ exp_ok p16 /\ mul_fits p16 /\ real p16 20001 /\ real p16 (-12345) /\ roomy p16 /\
  p_div p16 20001 (-12345) = Ok (-23991).
Proof. ex. Qed.

(** Without [mul_fits] the quotient 1/(129/128) comes out as 1/2. *)
Theorem C13_narrow_refuted : exists c x r, valid_cfg c /\ exp_ok c /\ frac_fits c /\ roomy c /\ real c x /\ (value c x == 129 # 128)%Q /\
  p_div c (p_one c) x = Ok r /\ (value c r == 1 # 2)%Q /\ ~ rounds_tz c (value c (p_one c) / value c x) r.
Proof. exact div_narrow. Qed.
Print Assumptions C13_narrow_refuted.

(** C14. Sum of two operands of the same sign. *)
Theorem C14_add_same_sign c a b :
  valid_cfg c -> exp_ok c -> mul_fits c -> real c a -> real c b -> same_sign a b ->
  (near c (value c a) (value c b) /\ room c (value c a + value c b) ->
     exists r, p_add c a b = Ok r /\ rounds_tz c (value c a + value c b) r) /\
  (~ near c (value c a) (value c b) \/ ~ room c (value c a + value c b) -> p_add c a b = UB ShiftCount).
Proof. exact (add_same_total c a b). Qed.
Print Assumptions C14_add_same_sign.
Example C14_ex : valid_cfg p16 /\ exp_ok p16 /\ mul_fits p16 /\ real p16 20001 /\ real p16 12345 /\ same_sign 20001 12345 /\
  near p16 (value p16 20001) (value p16 12345) /\ roomy p16 /\ p_add p16 20001 12345 = Ok 21278.
Proof. conj; try ex. apply (near_by _ _ _ 0 (-1)); ex. Qed.

(** C15. Sum and difference of any two operands: faithful, exact when the exact result is a posit, with
    its sign. *)
Theorem C15_add_faithful c a b r :
  valid_cfg c -> exp_ok c -> add_fits c -> real c a -> real c b -> p_add c a b = Ok r ->
  faithful c (value c a + value c b) r /\ sign_ok (value c a + value c b) r.
Proof. exact (p_add_faithful c a b r). Qed.
Print Assumptions C15_add_faithful.
Theorem C15_sub_faithful c a b r :
  valid_cfg c -> exp_ok c -> add_fits c -> real c a -> real c b -> p_sub c a b = Ok r ->
  faithful c (value c a - value c b) r /\ sign_ok (value c a - value c b) r.
Proof. exact (sub_any c a b r). Qed.
Print Assumptions C15_sub_faithful.
Theorem C15_add_defined c a b :
  valid_cfg c -> exp_ok c -> add_fits c -> real c a -> real c b ->
  (near c (value c a) (value c b) /\ room_up c (value c a + value c b) \/ a = 0 \/ b = 0 ->
    exists r, p_add c a b = Ok r /\ faithful c (value c a + value c b) r /\ sign_ok (value c a + value c b) r) /\
  (~ near c (value c a) (value c b) -> p_add c a b = UB ShiftCount).
Proof. exact (add_total c a b). Qed.
Print Assumptions C15_add_defined.
Theorem C15_sub_defined c a b :
  valid_cfg c -> exp_ok c -> add_fits c -> real c a -> real c b ->
  (near c (value c a) (value c b) /\ room_up c (value c a - value c b) \/ a = 0 \/ b = 0 ->
    exists r, p_sub c a b = Ok r /\ faithful c (value c a - value c b) r /\ sign_ok (value c a - value c b) r) /\
  (~ near c (value c a) (value c b) -> p_sub c a b = UB ShiftCount).
Proof. exact (sub_total c a b). Qed.
Print Assumptions C15_sub_defined.
Example C15_ex : valid_cfg p16 /\ exp_ok p16 /\ add_fits p16 /\ real p16 20001 /\ real p16 (-12345) /\ roomy p16 /\
  near p16 (value p16 20001) (value p16 (-12345)) /\ p_add p16 20001 (-12345) = Ok 17924 /\ p_sub p16 20001 12345 = Ok 17924.
Proof. conj; try ex. apply (near_by _ _ _ 0 (-1)); ex. Qed.

(** C16. Full statement: a+b is defined for all finite a, b. False: it is undefined exactly when the
    exponents are far apart (or the sum has no room, which roomy instantiations exclude). *)
Theorem C16_add_defined_partial c a b :
  valid_cfg c -> exp_ok c -> add_fits c -> roomy c -> real c a -> real c b ->
  (near c (value c a) (value c b) -> exists r, p_add c a b = Ok r) /\
  (~ near c (value c a) (value c b) -> p_add c a b = UB ShiftCount).
Proof. exact (add_defined_iff c a b). Qed.
Print Assumptions C16_add_defined_partial.
Theorem C16_add_defined_refuted :
  exists c a b, valid_cfg c /\ exp_ok c /\ add_fits c /\ roomy c /\ real c a /\ real c b /\ p_add c a b = UB ShiftCount.
Proof. exact add_undefined. Qed.
Print Assumptions C16_add_defined_refuted.
Example C16_ex : ~ near p16 (value p16 32767) (value p16 1) /\ near p16 (value p16 1) (value p16 (-2)).
Proof. conj; [apply (far_by _ _ _ 28 (-28)); ex|apply (near_by _ _ _ (-28) (-26)); ex]. Qed.

(** C18. Commutativity (equal outcomes, undefined ones included) for operands that are not NaN. *)
Theorem C18_commutative c a b :
  valid_cfg c -> pattern c a -> pattern c b -> ~ is_nan c a -> ~ is_nan c b ->
  p_add c a b = p_add c b a /\ p_mul c a b = p_mul c b a.
Proof. exact (commute c a b). Qed.
Print Assumptions C18_commutative.
Theorem C18_commutative_nan_refuted :
  exists c a b, valid_cfg c /\ pattern c a /\ pattern c b /\ p_add c a b <> p_add c b a /\ p_mul c a b <> p_mul c b a.
Proof. exact commute_refuted. Qed.
Print Assumptions C18_commutative_nan_refuted.
Example C18_ex : valid_cfg p16ni /\ pattern p16ni 32767 /\ pattern p16ni (-5) /\ ~ is_nan p16ni 32767 /\ ~ is_nan p16ni (-5).
Proof. ex. Qed.

(** C19. Neutral and absorbing elements. *)
Theorem C19_neutral c x :
  valid_cfg c -> exp_ok c -> mul_fits c -> real c x ->
  p_add c x 0 = Ok x /\ p_add c 0 x = Ok x /\ p_sub c x 0 = Ok x /\
  p_mul c x 0 = Ok 0 /\ p_mul c 0 x = Ok 0 /\
  (x <> 0 -> p_div c x x = Ok (p_one c)) /\
  (add_fits c -> p_sub c x x = Ok 0) /\
  (room c (value c x) ->
    p_mul c x (p_one c) = Ok x /\ p_mul c (p_one c) x = Ok x /\ p_div c x (p_one c) = Ok x /\
    p_mul c x (p_mone c) = Ok (- x) /\ p_neg c x = Ok (- x)) /\
  (~ room c (value c x) ->
    p_mul c x (p_one c) = UB ShiftCount /\ p_mul c (p_one c) x = UB ShiftCount /\ p_div c x (p_one c) = UB ShiftCount).
Proof. exact (neutral c x). Qed.
Print Assumptions C19_neutral.
Example C19_ex : valid_cfg p32 /\ exp_ok p32 /\ mul_fits p32 /\ add_fits p32 /\ real p32 1500000000 /\
  room p32 (value p32 1500000000) /\ ~ room p32 (value p32 2147483647).
Proof. conj; try ex; [apply (room_by _ _ 3)|apply (noroom_by _ _ 120)]; ex. Qed.

(** C20. Full statement: a NaN operand on either side gives NaN. It holds for a NaN on the left; with a
    NaN on the right the left operand is returned (except for 0 + NaN). *)
Theorem C20_nan_left_partial c a b :
  valid_cfg c -> is_nan c a -> pattern c b ->
  p_add c a b = Ok a /\ p_mul c a b = Ok a /\ p_div c a b = Ok a /\ (real c b -> p_sub c a b = Ok a).
Proof. exact (nan_left c a b). Qed.
Print Assumptions C20_nan_left_partial.
Theorem C20_nan_right c a b :
  valid_cfg c -> exp_ok c -> frac_fits c -> is_nan c b -> pattern c a ->
  (forall r, p_mul c a b = Ok r -> r = a) /\ (forall r, p_div c a b = Ok r -> r = a) /\
  (forall r, a <> 0 -> p_add c a b = Ok r -> r = a) /\ p_add c 0 b = Ok b.
Proof. exact (nan_right c a b). Qed.
Print Assumptions C20_nan_right.
Theorem C20_nan_propagates_refuted :
  exists c a n, valid_cfg c /\ exp_ok c /\ frac_fits c /\ real c a /\ is_nan c n /\
    p_add c a n = Ok a /\ p_sub c a n = Ok a /\ p_mul c a n = Ok a /\ p_div c a n = Ok a.
Proof. exact nan_refuted. Qed.
Print Assumptions C20_nan_propagates_refuted.
Example C20_ex : valid_cfg p16 /\ is_nan p16 (-32768) /\ pattern p16 77.
Proof. ex. Qed.

(** C21. Infinities. *)
Theorem C21_infinities c i x :
  valid_cfg c -> is_inf c i -> real c x ->
  p_add c i x = Ok i /\ p_add c x i = Ok i /\ p_add c i i = Ok i /\
  (x <> 0 -> p_mul c i x = Ok (inf_of c (neg_sign i x)) /\ p_mul c x i = Ok (inf_of c (neg_sign x i)) /\
             p_div c i x = Ok (inf_of c (neg_sign i x)) /\ p_div c x 0 = Ok (inf_of c (x <? 0))) /\
  p_mul c i 0 = Ok (exceptional c) /\ p_mul c 0 i = Ok (exceptional c) /\
  p_div c 0 0 = Ok (exceptional c) /\ p_div c i 0 = Ok i /\ p_div c 0 i = Ok 0 /\
  (forall j, is_inf c j -> p_mul c i j = Ok (inf_of c (neg_sign i j)) /\ p_div c i j = Ok (exceptional c)) /\
  (forall j, is_pinf c i -> is_ninf c j -> p_add c i j = Ok (exceptional c) /\ p_add c j i = Ok (exceptional c)).
Proof. exact (infinities c i x). Qed.
Print Assumptions C21_infinities.
Theorem C21_subtract_infinities c i j :
  valid_cfg c -> is_pinf c i -> is_ninf c j ->
  p_sub c i i = Ok (exceptional c) /\ p_sub c j j = Ok (exceptional c) /\ p_sub c i j = Ok i /\ p_sub c j i = Ok j /\
  (forall x, real c x -> p_sub c i x = Ok i /\ p_sub c j x = Ok j /\ p_sub c x i = Ok j /\ p_sub c x j = Ok i).
Proof. exact (sub_infinities c i j). Qed.
Print Assumptions C21_subtract_infinities.
Example C21_ex : valid_cfg p16ni /\ is_pinf p16ni 32767 /\ is_ninf p16ni (-32767) /\ real p16ni (-12345) /\
  inf_of p16ni (neg_sign 32767 (-12345)) = -32767.
Proof. ex. Qed.

(** C22. Division by zero. *)
Theorem C22_divide_by_zero c x :
  valid_cfg c -> real c x ->
  p_div c 0 0 = Ok (exceptional c) /\
  (x <> 0 -> csp c = WithNan -> exists r, p_div c x 0 = Ok r /\ is_nan c r) /\
  (x <> 0 -> csp c = WithInf -> exists r, p_div c x 0 = Ok r /\ is_uinf c r) /\
  (x <> 0 -> csp c = WithNanInf -> exists r, p_div c x 0 = Ok r /\ (if x <? 0 then is_ninf c r else is_pinf c r)).
Proof. exact (div_zero_all c x). Qed.
Print Assumptions C22_divide_by_zero.
Example C22_ex : valid_cfg p16ni /\ real p16ni (-5) /\ csp p16ni = WithNanInf /\ csp p16 = WithNan /\ csp p16i = WithInf.
Proof. ex. Qed.

(** C62. Full statement: finite / infinity = 0. False for nonzero finite operands, whose quotient is an
    infinity; true for 0 / infinity. *)
Theorem C62_divide_by_infinity_partial c i x :
  valid_cfg c -> is_inf c i -> real c x ->
  p_div c 0 i = Ok 0 /\ (x <> 0 -> p_div c x i = Ok (inf_of c (neg_sign x i))).
Proof. exact (fin_div_inf_all c i x). Qed.
Print Assumptions C62_divide_by_infinity_partial.
Theorem C62_divide_by_infinity_refuted :
  exists c i x, valid_cfg c /\ is_inf c i /\ real c x /\ p_div c x i <> Ok 0.
Proof. exact fin_div_inf_refuted. Qed.
Print Assumptions C62_divide_by_infinity_refuted.
Example C62_ex : valid_cfg p16ni /\ is_inf p16ni 32767 /\ real p16ni 12345.
Proof. conj; [ex|left; ex|ex]. Qed.

(** C31. fma on degenerate arguments, and C63: fma is faithful to the exact a*b+d as soon as FT holds the
    exact product of two posit fractions. *)
Theorem C31_fma_degenerate c a b d :
  valid_cfg c -> exp_ok c -> mul_fits c -> real c a -> real c b -> real c d ->
  p_fma c a b 0 = p_mul c a b /\
  (a <> 0 /\ d <> 0 \/ room c (value c a + value c d) ->
     p_fma c a (p_one c) d = p_add c a d /\ p_fma c (p_one c) a d = p_add c a d) /\
  (a = 0 \/ d = 0 -> ~ room c (value c a + value c d) ->
     p_fma c a (p_one c) d = UB ShiftCount /\ p_fma c (p_one c) a d = UB ShiftCount).
Proof. exact (fma_degenerate_room c a b d). Qed.
Print Assumptions C31_fma_degenerate.
Example C31_ex : valid_cfg p16 /\ exp_ok p16 /\ mul_fits p16 /\ roomy p16 /\ real p16 20001 /\ real p16 12345 /\ real p16 (-77) /\
  p_fma p16 20001 (p_one p16) 12345 = Ok 21278.
Proof. ex. Qed.
Theorem C63_fma_faithful c a b d :
  valid_cfg c -> exp_ok c -> fma_fits c -> real c a -> real c b -> real c d ->
  (forall r, p_fma c a b d = Ok r ->
     faithful c (value c a * value c b + value c d) r /\ sign_ok (value c a * value c b + value c d) r) /\
  (near c (value c a * value c b) (value c d) -> room_up c (value c a * value c b + value c d) ->
     exists r, p_fma c a b d = Ok r) /\
  (~ near c (value c a * value c b) (value c d) -> p_fma c a b d = UB ShiftCount).
Proof. exact (fma_faithful c a b d). Qed.
Print Assumptions C63_fma_faithful.
Example C63_ex : valid_cfg p16w /\ exp_ok p16w /\ fma_fits p16w /\ roomy p16w /\ real p16w 20001 /\ real p16w (-12345) /\
  real p16w 777 /\ near p16w (value p16w 20001 * value p16w (-12345)) (value p16w 777) /\
  p_fma p16w 20001 (-12345) 777 = Ok (-15995).
Proof. conj; try ex. apply (near_by _ _ _ (-1) (-9)); ex. Qed.

(** C32. dot accumulates left to right over any number of elements and rounds once. *)
Theorem C32_dot c p l :
  valid_cfg c -> frac_fits c -> Forall (fun q => real c (fst q) /\ real c (snd q)) (p :: l) ->
  exists u us, uprod c p = Ok u /\ Forall2 (fun q w => uprod c q = Ok w) l us /\
    p_dot c (p :: l) = bind (usum c u us) (pack_posit c).
Proof. exact (dot_sum c p l). Qed.
Print Assumptions C32_dot.
Theorem C32_dot_small c x y a b d :
  valid_cfg c -> mul_fits c -> real c a -> real c b -> real c d -> d <> 0 ->
  p_dot c [] = Ok 0 /\ p_dot c [(x, y)] = p_mul c x y /\ p_dot c [(a, b); (d, p_one c)] = p_fma c a b d.
Proof. exact (dot_small c x y a b d). Qed.
Print Assumptions C32_dot_small.
Theorem C32_dot_zero_term c x y l p :
  valid_cfg c -> frac_fits c -> real c x -> real c y -> x = 0 \/ y = 0 ->
  p_dot c (p :: (x, y) :: l) = p_dot c (p :: l).
Proof. exact (dot_zero_term c x y l p). Qed.
Print Assumptions C32_dot_zero_term.
Example C32_ex : valid_cfg p16 /\ mul_fits p16 /\ frac_fits p16 /\ real p16 20001 /\ real p16 12345 /\
  p_dot p16 [(20001, 12345); (0, 5); (16384, 20001)] = Ok 22195.
Proof. ex. Qed.

(** C56. Results of operations on finite posits are patterns of the format. *)
Theorem C56_canonical c a b :
  valid_cfg c -> exp_ok c -> add_fits c -> real c a -> real c b ->
  (forall r, p_add c a b = Ok r -> real c r) /\ (forall r, p_sub c a b = Ok r -> real c r) /\
  (forall r, p_mul c a b = Ok r -> real c r) /\ (forall r, p_div c a b = Ok r -> pattern c r /\ (b <> 0 -> real c r)) /\
  (forall r, p_neg c a = Ok r -> real c r) /\ (forall r, p_abs c a = Ok r -> real c r) /\
  (forall r, p_inv c a = Ok r -> pattern c r) /\
  (forall r, p_half c a = Ok r -> real c r) /\ (forall r, p_twice c a = Ok r -> pattern c r).
Proof. exact (results_real c a b). Qed.
Print Assumptions C56_canonical.
Example C56_ex : valid_cfg p10 /\ exp_ok p10 /\ add_fits p10 /\ real p10 511 /\ real p10 (-3).
Proof. ex. Qed.

(** C57. Sign symmetry; [bind o (p_neg c)] negates a defined outcome and keeps an undefined one. *)
Theorem C57_sign_symmetry c a b :
  valid_cfg c -> exp_ok c -> add_fits c -> real c a -> real c b ->
  exists na nb, p_neg c a = Ok na /\ p_neg c b = Ok nb /\
    p_mul c na b = bind (p_mul c a b) (p_neg c) /\ p_mul c a nb = bind (p_mul c a b) (p_neg c) /\
    (b <> 0 -> p_div c na b = bind (p_div c a b) (p_neg c) /\ p_div c a nb = bind (p_div c a b) (p_neg c)) /\
    p_add c na nb = bind (p_add c a b) (p_neg c).
Proof. exact (sign_symmetry c a b). Qed.
Print Assumptions C57_sign_symmetry.
Theorem C57_inv_symmetry c x r s :
  valid_cfg c -> exp_ok c -> mul_fits c -> real c x -> x <> 0 ->
  p_inv c x = Ok r -> p_inv c (- x) = Ok s -> s = - r.
Proof. exact (inv_opp c x r s). Qed.
Print Assumptions C57_inv_symmetry.
Example C57_ex : valid_cfg p16 /\ exp_ok p16 /\ add_fits p16 /\ mul_fits p16 /\ real p16 20001 /\ real p16 (-12345) /\
  p_inv p16 20001 = Ok 12542 /\ p_inv p16 (-20001) = Ok (-12542).
Proof. ex. Qed.

(** C58. Monotonicity. *)
Theorem C58_monotone c a b d :
  valid_cfg c -> exp_ok c -> mul_fits c -> real c a -> real c b -> real c d ->
  (value c a <= value c b)%Q ->
  (forall r s, (0 < value c d)%Q -> p_mul c a d = Ok r -> p_mul c b d = Ok s -> p_le c r s = true) /\
  (forall r s, (0 < value c d)%Q -> p_div c a d = Ok r -> p_div c b d = Ok s -> p_le c r s = true) /\
  (forall r s, (0 <= value c a)%Q /\ (0 <= value c b)%Q /\ (0 <= value c d)%Q \/
               (value c a <= 0)%Q /\ (value c b <= 0)%Q /\ (value c d <= 0)%Q ->
     p_add c a d = Ok r -> p_add c b d = Ok s -> p_le c r s = true).
Proof. exact (monotone c a b d). Qed.
Print Assumptions C58_monotone.
Example C58_ex : valid_cfg p16 /\ exp_ok p16 /\ mul_fits p16 /\ real p16 77 /\ real p16 78 /\ real p16 20001 /\
  (value p16 77 <= value p16 78)%Q /\ (0 < value p16 20001)%Q.
Proof. ex. Qed.
