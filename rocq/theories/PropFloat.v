(** PositF: posits that compute in float or double. *)
From Coq Require Import ZArith QArith Qabs Qminmax.
From Verif Require Import Res CInt Bits Traits Unpacked Cfg Posit Spec SpecFloat FloatOps PositF QPow Room Laws Configs Examples
  FloatProof FloatProof2 PositFProof PositFProof2 PositFProof3 PositFProof4.
Open Scope Z_scope.

(** C69. PositF<T,totalbits,esbits,float|double,spec>: + - * / and inverse. [rnd] is any rounding of the two
    float types; the operands are any patterns, NaN and infinities included. A finite result is one of the two
    posits enclosing the exact result, and its truncation when the exact result is a float. Full claim: for
    every format whose numbers are all floats, with no out of range shift. Missing: products and quotients
    need the wider exponent range of [products_fit]; [fits] excludes the out of range shifts; a - NaN. *)
Theorem C69_multiply_partial c k rnd a b :
  valid_cfg c -> cF c = f_hold k -> float_covers c (f_eb k) (f_fb k) -> et_holds c (f_eb k) ->
  (forall j, rounding (f_eb j) (f_fb j) (rnd j)) -> products_fit c (f_eb k) -> pattern c a -> pattern c b ->
  fits c (f_eb k) (f_fb k) (x_mul (ext_of c a) (ext_of c b)) ->
  exists r, pf_mul c k rnd a b = Ok r /\ posit_for c (via_float c (f_eb k) (f_fb k)) (x_mul (ext_of c a) (ext_of c b)) r.
Proof. intros V HF FC ET RN. exact (pf_mul_spec c k rnd V HF FC ET RN a b). Qed.
Print Assumptions C69_multiply_partial.
Theorem C69_divide_partial c k rnd a b :
  valid_cfg c -> cF c = f_hold k -> float_covers c (f_eb k) (f_fb k) -> et_holds c (f_eb k) ->
  (forall j, rounding (f_eb j) (f_fb j) (rnd j)) -> products_fit c (f_eb k) -> pattern c a -> pattern c b ->
  fits c (f_eb k) (f_fb k) (x_div (ext_of c a) (ext_of c b)) ->
  exists r, pf_div c k rnd a b = Ok r /\ posit_for c (via_float c (f_eb k) (f_fb k)) (x_div (ext_of c a) (ext_of c b)) r.
Proof. intros V HF FC ET RN. exact (pf_div_spec c k rnd V HF FC ET RN a b). Qed.
Print Assumptions C69_divide_partial.
Theorem C69_add_partial c k rnd a b :
  valid_cfg c -> cF c = f_hold k -> float_covers c (f_eb k) (f_fb k) -> et_holds c (f_eb k) ->
  (forall j, rounding (f_eb j) (f_fb j) (rnd j)) -> pattern c a -> pattern c b ->
  (a <> 0 -> b <> 0 -> fits c (f_eb k) (f_fb k) (x_add (ext_of c a) (ext_of c b))) ->
  exists r, pf_add c k rnd a b = Ok r /\ posit_for c (via_float c (f_eb k) (f_fb k)) (x_add (ext_of c a) (ext_of c b)) r.
Proof. intros V HF FC ET RN. exact (pf_add_spec c k rnd V HF FC ET RN a b). Qed.
Print Assumptions C69_add_partial.
Theorem C69_subtract_partial c k rnd a b :
  valid_cfg c -> cF c = f_hold k -> float_covers c (f_eb k) (f_fb k) -> et_holds c (f_eb k) ->
  (forall j, rounding (f_eb j) (f_fb j) (rnd j)) -> pattern c a -> pattern c b -> b <> exceptional c ->
  (a <> 0 -> b <> 0 -> fits c (f_eb k) (f_fb k) (x_add (ext_of c a) (x_opp (ext_of c b)))) ->
  exists r, pf_sub c k rnd a b = Ok r /\ posit_for c (via_float c (f_eb k) (f_fb k)) (x_add (ext_of c a) (x_opp (ext_of c b))) r.
Proof. intros V HF FC ET RN. exact (pf_sub_spec c k rnd V HF FC ET RN a b). Qed.
Print Assumptions C69_subtract_partial.
Theorem C69_inverse_partial c k rnd v :
  valid_cfg c -> cF c = f_hold k -> float_covers c (f_eb k) (f_fb k) -> et_holds c (f_eb k) ->
  (forall j, rounding (f_eb j) (f_fb j) (rnd j)) -> pattern c v ->
  fits c (f_eb k) (f_fb k) (x_div (FinVal 1) (ext_of c v)) ->
  exists r, pf_inv c k rnd v = Ok r /\ posit_for c (via_float c (f_eb k) (f_fb k)) (x_div (FinVal 1) (ext_of c v)) r.
Proof. intros V HF FC ET RN. exact (pf_inv_spec c k rnd V HF FC ET RN v). Qed.
Print Assumptions C69_inverse_partial.
(** The float covers the numbers of the format but not their products: maxpos * maxpos is NaN. *)
Theorem C69_overflow_refuted : exists c a, valid_cfg c /\ cF c = f_hold FFloat /\ float_covers c 8 23 /\ et_holds c 8 /\ real c a /\
  pf_mul c FFloat rnek a a = Ok (exceptional c) /\ is_nan c (exceptional c) /\ p_mul c a a = Ok a.
Proof. exact pf_mul_overflow. Qed.
Print Assumptions C69_overflow_refuted.
(** a - NaN, when T has spare bits: undefined behaviour or a pattern outside the format. *)
Theorem C69_subtract_nan_refuted : exists c a, valid_cfg c /\ cF c = f_hold FFloat /\ float_covers c 8 23 /\ real c a /\ is_nan c (exceptional c) /\
  pf_sub c FFloat rnek a (exceptional c) = UB ShiftNeg /\ pf_sub c FFloat rnek 0 (exceptional c) = Ok (2 ^ (cN c - 1)) /\ ~ pattern c (2 ^ (cN c - 1)).
Proof. exact pf_sub_nan. Qed.
Print Assumptions C69_subtract_nan_refuted.
Example C69_ex : valid_cfg p16w /\ cF p16w = f_hold FFloat /\ float_covers p16w 8 23 /\ et_holds p16w 8 /\ products_fit p16w 8 /\
  pattern p16w 20000 /\ pattern p16w (-13000) /\ pattern p16w (-32768) /\ -13000 <> exceptional p16w /\
  pf_mul p16w FFloat rnek 20000 (-13000) = Ok (-16814) /\ pf_div p16w FFloat rnek 20000 (-13000) = Ok (-22953) /\
  pf_add p16w FFloat rnek 20000 (-13000) = Ok 17596 /\ pf_sub p16w FFloat rnek 20000 (-13000) = Ok 21442 /\
  pf_inv p16w FFloat rnek 20000 = Ok 12542 /\ pf_mul p16w FFloat rnek 20000 (-32768) = Ok (-32768) /\ pf_div p16w FFloat rnek 5 0 = Ok (-32768).
Proof. ex. Qed.
Example C69_rounding_ex : forall j, rounding (f_eb j) (f_fb j) (rnek j).
Proof. exact rnek_rounding. Qed.
Example C69_fits_ex x : fits p16w 8 23 x.
Proof. destruct x; cbn [fits]; [left; apply roomy_room_up; [exact valid_p16w|vm_compute; reflexivity]|exact I|exact I]. Qed.

(** C70. half, twice and construction from an int truncate the exact result; epsilon() is the gap above one. *)
Theorem C70_twice c k rnd v :
  valid_cfg c -> cF c = f_hold k -> float_covers c (f_eb k) (f_fb k) -> et_holds c (f_eb k) ->
  (forall j, rounding (f_eb j) (f_fb j) (rnd j)) -> pattern c v -> (real c v -> room c (2 * value c v)) ->
  exists r, pf_twice c k rnd v = Ok r /\ posit_for c (rounds_tz c) (x_mul (FinVal 2) (ext_of c v)) r.
Proof. intros V HF FC ET RN. exact (pf_twice_spec c k rnd V HF FC ET RN v). Qed.
Print Assumptions C70_twice.
Theorem C70_half c k rnd v :
  valid_cfg c -> cF c = f_hold k -> float_covers c (f_eb k) (f_fb k) -> et_holds c (f_eb k) ->
  (forall j, rounding (f_eb j) (f_fb j) (rnd j)) -> pattern c v -> (real c v -> room c ((1 # 2) * value c v)) ->
  exists r, pf_half c k rnd v = Ok r /\ posit_for c (rounds_tz c) (x_mul (FinVal (1 # 2)) (ext_of c v)) r.
Proof. intros V HF FC ET RN. exact (pf_half_spec c k rnd V HF FC ET RN v). Qed.
Print Assumptions C70_half.
Theorem C70_of_int c k rnd i :
  valid_cfg c -> cF c = f_hold k -> float_covers c (f_eb k) (f_fb k) -> et_holds c (f_eb k) ->
  (forall j, rounding (f_eb j) (f_fb j) (rnd j)) -> - 2 ^ 31 <= i < 2 ^ 31 -> room c (inject_Z i) ->
  exists r, pf_of_int c rnd i = Ok r /\ rounds_tz c (inject_Z i) r.
Proof. intros V HF FC ET RN. exact (pf_of_int_spec c k rnd V HF FC ET RN i). Qed.
Print Assumptions C70_of_int.
Theorem C70_epsilon c k rnd :
  valid_cfg c -> cF c = f_hold k -> float_covers c (f_eb k) (f_fb k) -> et_holds c (f_eb k) ->
  (forall j, rounding (f_eb j) (f_fb j) (rnd j)) -> (csp c = WithNanInf -> cN c <> 3) ->
  exists eps n, pf_epsilon c k rnd = Ok eps /\ real c eps /\ (value c eps == pow2 (- (cN c - 3 - ces c)))%Q /\
    pf_next c (p_one c) = Ok n /\ real c n /\ (value c n == 1 + value c eps)%Q.
Proof. exact (pf_epsilon_spec c k rnd). Qed.
Print Assumptions C70_epsilon.
Example C70_ex : pf_twice p16w FFloat rnek 20000 = Ok 24096 /\ pf_half p16w FFloat rnek 20000 = Ok 15904 /\ pf_of_int p16w rnek (-77) = Ok (-30824) /\
  - 2 ^ 31 <= -77 < 2 ^ 31 /\ pf_epsilon p16w FFloat rnek = Ok 256 /\ pf_half p16w FFloat rnek 1 = Ok 1.
Proof. ex. Qed.
Example C70_room_ex x : room p16w x.
Proof. apply roomy_room; [exact valid_p16w|vm_compute; reflexivity]. Qed.

(** C71. Agreement with the generic template. Full claim: products agree on every format the float covers.
    Missing: formats with longer products, where the intermediate rounding of the float shows. *)
Theorem C71_multiply_partial c k rnd a b :
  valid_cfg c -> cF c = f_hold k -> float_covers c (f_eb k) (f_fb k) -> et_holds c (f_eb k) ->
  (forall j, rounding (f_eb j) (f_fb j) (rnd j)) -> products_fit c (f_eb k) -> 2 * (cN c - 3 - ces c) + 1 <= f_fb k ->
  real c a -> real c b -> room c (value c a * value c b) -> pf_mul c k rnd a b = p_mul c a b.
Proof. intros V HF FC ET RN. exact (pf_mul_same c k rnd V HF FC ET RN a b). Qed.
Print Assumptions C71_multiply_partial.
Theorem C71_multiply_refuted : exists c a b r s, valid_cfg c /\ cF c = f_hold FDouble /\ float_covers c 11 52 /\ products_fit c 11 /\ real c a /\ real c b /\
  pf_mul c FDouble rnek a b = Ok r /\ p_mul c a b = Ok s /\ rounds_tz c (value c a * value c b) s /\ ~ rounds_tz c (value c a * value c b) r.
Proof. exact pf_mul_double. Qed.
Print Assumptions C71_multiply_refuted.
Example C71_ex : 2 * (cN p8w - 3 - ces p8w) + 1 <= 23 /\ valid_cfg p8w /\ cF p8w = f_hold FFloat /\ float_covers p8w 8 23 /\ et_holds p8w 8 /\ products_fit p8w 8 /\
  real p8w 100 /\ real p8w (-37) /\ pf_mul p8w FFloat rnek 100 (-37) = Ok (-78).
Proof. split; [vm_compute; congruence|]. split; [exact valid_p8w|]. ex. Qed.

(** C72. Order of PositF. Full claim: NaN is unordered and only infinities are infinite. *)
Theorem C72_order_partial c a b : valid_cfg c -> real c a -> real c b ->
  (pf_lt a b = true <-> (value c a < value c b)%Q) /\
  (pf_le a b = true <-> (value c a <= value c b)%Q) /\
  (pf_gt a b = true <-> (value c a > value c b)%Q) /\
  (pf_ge a b = true <-> (value c a >= value c b)%Q) /\
  (pf_eq a b = true <-> (value c a == value c b)%Q) /\
  (pf_ne a b = true <-> ~ (value c a == value c b)%Q).
Proof. exact (pf_order c a b). Qed.
Print Assumptions C72_order_partial.
Theorem C72_minmax c a b : valid_cfg c -> real c a -> real c b ->
  (value c (pf_stdmin a b) == Qmin (value c a) (value c b))%Q /\
  (value c (pf_stdmax a b) == Qmax (value c a) (value c b))%Q.
Proof. exact (pf_minmax c a b). Qed.
Print Assumptions C72_minmax.
Theorem C72_isinfinity_partial c v : valid_cfg c -> csp c <> WithNan -> (pf_isinfinity c v = true <-> is_inf c v).
Proof. exact (pf_isinf c v). Qed.
Print Assumptions C72_isinfinity_partial.
Theorem C72_nan_order_refuted c b : valid_cfg c -> real c b ->
  pf_eq (exceptional c) (exceptional c) = true /\ pf_le (exceptional c) (exceptional c) = true /\ pf_lt (exceptional c) b = true.
Proof. exact (pf_order_nan c b). Qed.
Print Assumptions C72_nan_order_refuted.
Theorem C72_isinfinity_refuted c : valid_cfg c -> csp c = WithNan ->
  is_nan c (exceptional c) /\ pf_isinfinity c (exceptional c) = true /\ forall v, ~ is_inf c v.
Proof. exact (pf_isinf_nan c). Qed.
Print Assumptions C72_isinfinity_refuted.
Example C72_ex : valid_cfg p16w /\ real p16w (-5) /\ real p16w 7 /\ pf_lt (-5) 7 = true /\ pf_stdmax (-5) 7 = 7 /\
  csp p16ni <> WithNan /\ pf_isinfinity p16ni 32767 = true /\ csp p16w = WithNan.
Proof. ex. Qed.

(** C73. The default mode of the float types: [rne] is a rounding in the sense of C69 to C71, gives a nearest
    float, of two nearest the one with an even pattern, and overflows only half a step beyond the largest float. *)
Theorem C73_rounding eb fb : fmt_ok eb fb -> rounding eb fb (rne eb fb).
Proof. exact (rne_rounding eb fb). Qed.
Print Assumptions C73_rounding.
Theorem C73_nearest eb fb q y : fmt_ok eb fb -> ieee_val eb fb (rne eb fb q) = FinVal y -> is_nearest eb fb q y /\
  (forall z, is_float eb fb z -> ~ (z == y)%Q -> (Qabs (q - z) == Qabs (q - y))%Q -> Z.even (rne eb fb q) = true).
Proof. intros FO. exact (rne_near eb fb FO q y). Qed.
Print Assumptions C73_nearest.
Theorem C73_overflow eb fb q s : fmt_ok eb fb -> ieee_val eb fb (rne eb fb q) = InfVal s ->
  (pow2 (2 ^ (eb - 1)) - pow2 (2 ^ (eb - 1) - fb - 2) <= Qabs q)%Q /\ s = neg_q q.
Proof. intros FO. exact (rne_overflow eb fb FO q s). Qed.
Print Assumptions C73_overflow.
Example C73_ex : fmt_ok 8 23 /\ rne 8 23 (1 # 10) = 0x3dcccccd /\ rne 8 23 (16777217 # 1) = 0x4b800000 /\ rne 8 23 (inject_Z (- 2 ^ 128)) = 0xff800000 /\
  rne 8 23 (pow2 (-150)) = 0 /\ rne 8 23 (pow2 (-149)) = 1.
Proof. split; [constructor; [right; right; left; reflexivity|split; discriminate|discriminate]|]. ex. Qed.
