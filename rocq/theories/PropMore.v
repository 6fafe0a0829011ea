(** Deferred products (POSITMUL), pseudosoftplus, urDeltaPs and the sign tests: C93-C96. *)
From Coq Require Import ZArith QArith Qabs.
From Verif Require Import Res CInt Unpacked QPow FloatProof FloatProof2 PositFProof PositFProof4 Cfg Spec SpecFloat Posit FloatOps PositF Configs Examples Fma Fma2 Misc5 Misc6.
Open Scope Z_scope.

(** C93. With POSITMUL, a*b is a deferred product. a*b + d*g and a*b - d*g are one of the two posits enclosing
    the exact result (single rounding) when FT holds exact products; the only undefined behaviour is an out of
    range shift, and it is certain when the products are too far apart. Full claim: also for a - b with a zero
    product on the right; false, see the refutation. *)
Theorem C93_sum_of_products c a b d g :
  valid_cfg c -> exp_ok c -> fma_fits c -> real c a -> real c b -> real c d -> real c g ->
  let x := (value c a * value c b)%Q in let y := (value c d * value c g)%Q in
  (forall r, pm_add c (a, b) (d, g) = Ok r -> faithful c (x + y) r /\ sign_ok (x + y) r) /\
  (near c x y -> room_up c (x + y) -> exists r, pm_add c (a, b) (d, g) = Ok r) /\
  (~ near c x y -> pm_add c (a, b) (d, g) = UB ShiftCount).
Proof. exact (pm_add_ok c a b d g). Qed.
Print Assumptions C93_sum_of_products.
Theorem C93_difference_of_products_partial c a b d g :
  valid_cfg c -> exp_ok c -> fma_fits c -> real c a -> real c b -> real c d -> real c g -> d <> 0 -> g <> 0 ->
  let x := (value c a * value c b)%Q in let y := (value c d * value c g)%Q in
  (forall r, pm_sub c (a, b) (d, g) = Ok r -> faithful c (x - y) r /\ sign_ok (x - y) r) /\
  (near c x y -> room_up c (x - y) -> exists r, pm_sub c (a, b) (d, g) = Ok r) /\
  (~ near c x y -> pm_sub c (a, b) (d, g) = UB ShiftCount).
Proof. exact (pm_sub_ok c a b d g). Qed.
Print Assumptions C93_difference_of_products_partial.
(** 1*1 - 0*1 is 0: a zero product counts as 1 after the minus sign. *)
Theorem C93_minus_zero_refuted :
  pm_sub p16w (16384, 16384) (0, 16384) = Ok 0 /\ (value p16w 16384 * value p16w 16384 - value p16w 0 * value p16w 16384 == 1)%Q.
Proof. exact pm_sub_zero_bad. Qed.
Print Assumptions C93_minus_zero_refuted.
Example C93_ex : valid_cfg p16w /\ exp_ok p16w /\ fma_fits p16w /\ real p16w 20001 /\ real p16w (-12345) /\ real p16w 17777 /\ real p16w 9999 /\
  17777 <> 0 /\ 9999 <> 0 /\ pm_add p16w (20001, -12345) (17777, 9999) = Ok (-11826) /\ pm_sub p16w (20001, -12345) (17777, 9999) = Ok (-18175).
Proof. ex. Qed.
Example C93_near_ex : near p16w (value p16w 20001 * value p16w (-12345)) (value p16w 17777 * value p16w 9999) /\
  room_up p16w (value p16w 20001 * value p16w (-12345) + value p16w 17777 * value p16w 9999).
Proof.
  split; [apply (near_by _ _ _ (-1) (-2)); ex|].
  right. exists (-2). ex.
Qed.

(** C94. pseudosoftplus, documented as ln(1+exp(x)). Full statement: for every finite x the result is a finite
    number at least max(0,x), the function is monotone and close to ln(1+exp(x)). Proved: it is at least
    max(1,x) and monotone for x >= 0; for es=0 it is 1+x truncated on [0,1]; it is useed*x truncated for x >= 1,
    useed = 2^2^es, and so at least twice the documented function for large x. Negative x: only for 32 bit
    posits in 32 bit holders. The largest number of a format with infinities gives infinity. *)
Theorem C94_softplus_partial c v :
  valid_cfg c -> real c v -> (0 <= value c v)%Q -> csp c <> WithNanInf \/ (value c v < value c (maxreal c))%Q ->
  exists r, p_pseudosoftplus c v = Ok r /\ real c r /\ (1 <= value c r)%Q /\ (value c v <= value c r)%Q /\
    (v = 0 -> (value c r == 1)%Q) /\
    (forall w s, real c w -> real c s -> (value c v <= value c w)%Q -> p_pseudosoftplus c w = Ok s -> (value c r <= value c s)%Q).
Proof. exact (softplus c v). Qed.
Print Assumptions C94_softplus_partial.
Theorem C94_unit_partial c v :
  valid_cfg c -> ces c = 0 -> real c v -> (0 <= value c v <= 1)%Q -> csp c <> WithNanInf \/ (value c v < value c (maxreal c))%Q ->
  exists r, p_pseudosoftplus c v = Ok r /\ rounds_tz c (1 + value c v) r.
Proof. exact (softplus_unit c v). Qed.
Print Assumptions C94_unit_partial.
Theorem C94_above_one c v :
  valid_cfg c -> real c v -> (1 <= value c v)%Q -> csp c <> WithNanInf \/ (value c v < value c (maxreal c))%Q ->
  exists r, p_pseudosoftplus c v = Ok r /\ rounds_tz c (value c v * pow2 (2 ^ ces c)) r.
Proof. exact (softplus_above c v). Qed.
Print Assumptions C94_above_one.
Theorem C94_negative_32_partial c v :
  valid_cfg c -> cH c = 32 -> cN c = 32 -> real c v -> (value c v <= 0)%Q ->
  exists r, p_pseudosoftplus c v = Ok r /\ real c r /\ (0 <= value c r <= 1)%Q /\
    (forall w s, real c w -> real c s -> (value c v <= value c w)%Q -> p_pseudosoftplus c w = Ok s -> (value c r <= value c s)%Q).
Proof. exact (softplus_below c v). Qed.
Print Assumptions C94_negative_32_partial.
Theorem C94_negative_refuted c v :
  valid_cfg c -> real c v -> v < 0 -> ~ (cH c = 32 /\ cN c = 32) ->
  exists r, p_pseudosoftplus c v = Ok r /\ ~ (real c r /\ (0 <= value c r)%Q).
Proof. exact (softplus_negative c v). Qed.
Print Assumptions C94_negative_refuted.
Theorem C94_infinite_refuted c :
  valid_cfg c -> csp c = WithNanInf -> p_pseudosoftplus c (maxreal c) = Ok (inf_of c false).
Proof. exact (softplus_inf c). Qed.
Print Assumptions C94_infinite_refuted.
Example C94_ex : valid_cfg p8 /\ ces p8 = 0 /\ real p8 45 /\ (0 <= value p8 45 <= 1)%Q /\ csp p8 <> WithNanInf /\ p_pseudosoftplus p8 45 = Ok 86 /\
  real p16 20000 /\ (1 <= value p16 20000)%Q /\ p_pseudosoftplus p16 20000 = Ok 26384 /\ valid_cfg p8ni /\ csp p8ni = WithNanInf /\
  (value p8ni 100 < value p8ni (maxreal p8ni))%Q /\ valid_cfg xmain /\ cH xmain = 32 /\ cN xmain = 32 /\ real xmain (-5) /\ (value xmain (-5) <= 0)%Q /\
  real p8 (-64) /\ ~ (cH p8 = 32 /\ cN p8 = 32).
Proof. ex. Qed.

(** C95. Full statement: urDeltaPs is x*(1-x) rounded for every x in [0,1]. Proved for es=0: truncated in Posit,
    one of the two enclosing posits in PositF. For es>0 the factor 1-x is wrong. *)
Theorem C95_delta_partial c v :
  valid_cfg c -> exp_ok c -> mul_fits c -> ces c = 0 -> real c v -> (0 <= value c v <= 1)%Q ->
  (room c (value c v * (1 - value c v)) -> exists r, p_urDeltaPs c v = Ok r /\ rounds_tz c (value c v * (1 - value c v)) r) /\
  (~ room c (value c v * (1 - value c v)) -> p_urDeltaPs c v = UB ShiftCount).
Proof. exact (delta c v). Qed.
Print Assumptions C95_delta_partial.
Theorem C95_positf_delta_partial c k rnd v :
  valid_cfg c -> cF c = f_hold k -> float_covers c (f_eb k) (f_fb k) -> et_holds c (f_eb k) ->
  (forall j, rounding (f_eb j) (f_fb j) (rnd j)) -> products_fit c (f_eb k) -> ces c = 0 -> real c v -> (0 <= value c v <= 1)%Q ->
  room_via c (f_eb k) (f_fb k) (value c v * (1 - value c v)) ->
  exists r, pf_urDeltaPs c k rnd v = Ok r /\ via_float c (f_eb k) (f_fb k) (value c v * (1 - value c v)) r.
Proof. exact (pf_delta c k rnd v). Qed.
Print Assumptions C95_positf_delta_partial.
Theorem C95_delta_refuted c :
  valid_cfg c -> 0 < ces c -> let v := 2 ^ (cN c - 3) in
  real c v /\ (0 <= value c v <= 1)%Q /\ p_urDeltaPs c v = p_mul c v v /\ ~ (value c v == 1 - value c v)%Q.
Proof. exact (delta_bad c). Qed.
Print Assumptions C95_delta_refuted.
Example C95_ex : valid_cfg p8 /\ exp_ok p8 /\ mul_fits p8 /\ ces p8 = 0 /\ real p8 19 /\ (0 <= value p8 19 <= 1)%Q /\ p_urDeltaPs p8 19 = Ok 13 /\
  valid_cfg p16 /\ 0 < ces p16.
Proof. ex. Qed.
Example C95_room_ex : room p8 (value p8 19 * (1 - value p8 19)).
Proof. apply (room_by _ _ (-3)); ex. Qed.
Example C95_positf_ex : valid_cfg xmain /\ cF xmain = f_hold FDouble /\ float_covers xmain 11 52 /\ et_holds xmain 11 /\ products_fit xmain 11 /\ ces xmain = 0 /\
  real xmain 268435456 /\ (value xmain 268435456 == 1 # 4)%Q /\ pf_urDeltaPs xmain FDouble rnek 268435456 = Ok 201326592 /\
  room_via xmain 11 52 (value xmain 268435456 * (1 - value xmain 268435456)).
Proof. conj; [ex|ex|ex|ex|ex|ex|ex|ex|ex|]. left. right. exists (-3). ex. Qed.

(** C96. iszero, isone and isnegative agree with the value. *)
Theorem C96_sign_tests c v :
  valid_cfg c -> real c v ->
  (iszero v = true <-> (value c v == 0)%Q) /\ (isone c v = true <-> (value c v == 1)%Q) /\ (isnegative v = true <-> (value c v < 0)%Q).
Proof. exact (sign_tests c v). Qed.
Print Assumptions C96_sign_tests.
Example C96_ex : valid_cfg p16 /\ real p16 16384 /\ isone p16 16384 = true /\ isnegative (-3) = true /\ iszero (-3) = false.
Proof. ex. Qed.
