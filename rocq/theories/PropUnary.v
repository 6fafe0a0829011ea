(** Properties of the unary operations and the constants: C23-C30. *)
From Coq Require Import ZArith QArith Qabs List.
From Verif Require Import Res Cfg Spec Posit Configs Examples Final1 Final2 Final4 Tight1 InvTwice.
Open Scope Z_scope.

(** C23. Full statement: for every finite nonzero x, inv(x) is the truncation of 1/x and equals one()/x.
    Missing: the smallest positive and the largest negative posit of WithNanInf formats, where inv gives an
    infinity. *)
Theorem C23_inv_partial c x :
  valid_cfg c -> exp_ok c -> mul_fits c -> real c x -> x <> 0 ->
  ~ (csp c = WithNanInf /\ (x = 1 \/ x = -1)) ->
  (forall r, p_inv c x = Ok r -> rounds_tz c (/ value c x) r) /\
  (forall r s, p_inv c x = Ok r -> p_div c (p_one c) x = Ok s -> r = s) /\
  (roomy c -> exists r, p_inv c x = Ok r /\ p_div c (p_one c) x = Ok r).
Proof. exact (inv_partial c x). Qed.
Print Assumptions C23_inv_partial.
Theorem C23_inv_refuted :
  exists c x r, valid_cfg c /\ exp_ok c /\ mul_fits c /\ real c x /\ x <> 0 /\
    p_inv c x = Ok r /\ is_pinf c r /\ p_div c (p_one c) x <> Ok r.
Proof. exact inv_minpos_refuted. Qed.
Print Assumptions C23_inv_refuted.
Theorem C23_inv_nan c a : valid_cfg c -> is_nan c a -> p_inv c a = Ok a.
Proof. exact (inv_nan c a). Qed.
Print Assumptions C23_inv_nan.
Example C23_ex : valid_cfg p16 /\ exp_ok p16 /\ mul_fits p16 /\ roomy p16 /\ real p16 (-20001) /\
  ~ (csp p16 = WithNanInf /\ (-20001 = 1 \/ -20001 = -1)) /\ p_inv p16 (-20001) = Ok (-12542) /\ is_nan p16 (-32768).
Proof. ex. Qed.

(** C24. Full statement: inv(0) is the result of 1/0 and inv(infinity) is 0. False: both are fixed points
    of inv. *)
Theorem C24_inv_special_partial c :
  valid_cfg c -> p_inv c 0 = Ok 0 /\ (forall i, is_inf c i -> p_inv c i = Ok i).
Proof. exact (inv_special c). Qed.
Print Assumptions C24_inv_special_partial.
Theorem C24_inv_special_refuted :
  exists c i, valid_cfg c /\ p_inv c 0 = Ok 0 /\ p_inv c 0 <> p_div c (p_one c) 0 /\ is_inf c i /\ p_inv c i = Ok i.
Proof. exact inv_refuted. Qed.
Print Assumptions C24_inv_special_refuted.
Example C24_ex : valid_cfg p16ni /\ is_inf p16ni (-32767).
Proof. split; [ex|right; left; ex]. Qed.

(** C25. inv is exact whenever the reciprocal is a posit (in particular for powers of two). *)
Theorem C25_inv_exact c x y r :
  valid_cfg c -> exp_ok c -> real c x -> real c y ->
  (value c x * value c y == 1)%Q -> p_inv c x = Ok r -> r = y.
Proof. exact (inv_exact_any c x y r). Qed.
Print Assumptions C25_inv_exact.
Example C25_ex : valid_cfg p16 /\ exp_ok p16 /\ real p16 (-24576) /\ real p16 (-8192) /\
  (value p16 (-24576) * value p16 (-8192) == 1)%Q /\ p_inv p16 (-24576) = Ok (-8192).
Proof. ex. Qed.

(** C26. Full statement: twice is the truncation with saturation of 2x for every finite x. Missing: the
    largest posit of WithNanInf formats with es=0, which becomes infinite. *)
Theorem C26_twice_partial c v :
  valid_cfg c -> real c v -> ~ (csp c = WithNanInf /\ ces c = 0 /\ Z.abs v = maxreal c) ->
  (forall r, p_twice c v = Ok r -> rounds_tz c (value c v * (2 # 1)) r) /\
  (cN c + 2 < Z.max 32 (cH c) -> exists r, p_twice c v = Ok r).
Proof. exact (twice_partial c v). Qed.
Print Assumptions C26_twice_partial.
Theorem C26_twice_infinite c v r :
  valid_cfg c -> csp c = WithNanInf -> ces c = 0 -> real c v -> Z.abs v = maxreal c ->
  p_twice c v = Ok r -> r = inf_of c (v <? 0).
Proof. exact (twice_escape c v r). Qed.
Print Assumptions C26_twice_infinite.
Theorem C26_twice_refuted : exists c v r, valid_cfg c /\ real c v /\ p_twice c v = Ok r /\ is_pinf c r.
Proof. exact twice_refuted. Qed.
Print Assumptions C26_twice_refuted.
Example C26_ex : valid_cfg p16 /\ real p16 (-20001) /\ ~ (csp p16 = WithNanInf /\ ces p16 = 0 /\ Z.abs (-20001) = maxreal p16) /\
  cN p16 + 2 < Z.max 32 (cH p16) /\ p_twice p16 (-20001) = Ok (-24097) /\
  valid_cfg p8ni /\ real p8ni (-126) /\ Z.abs (-126) = maxreal p8ni /\ ces p8ni = 0 /\ p_twice p8ni (-126) = Ok (-127).
Proof. ex. Qed.

(** C27. Full statement: half is the truncation with saturation of x/2 for every finite x. Missing: the two
    posits closest to 0, which become 0. *)
Theorem C27_half_partial c v :
  valid_cfg c -> real c v -> v <> 1 -> v <> -1 ->
  (forall r, p_half c v = Ok r -> rounds_tz c (value c v * (1 # 2)) r) /\
  (roomy c -> exists r, p_half c v = Ok r).
Proof. exact (half_partial c v). Qed.
Print Assumptions C27_half_partial.
Theorem C27_half_minpos c v r : valid_cfg c -> v = 1 \/ v = -1 -> p_half c v = Ok r -> r = 0.
Proof. exact (half_minpos_zero c v r). Qed.
Print Assumptions C27_half_minpos.
Theorem C27_half_refuted c : valid_cfg c -> roomy c -> p_half c 1 = Ok 0.
Proof. exact (half_refuted c). Qed.
Print Assumptions C27_half_refuted.
Example C27_ex : valid_cfg p16 /\ real p16 (-20001) /\ roomy p16 /\ p_half p16 (-20001) = Ok (-15905).
Proof. ex. Qed.

(** C28. Full statement: next/prev give the adjacent finite posit and saturate at max/lowest. Missing: next
    at both ends of the range. *)
Theorem C28_next_prev_partial c v :
  valid_cfg c -> real c v ->
  (v <> maxreal c -> v <> - maxreal c ->
    exists r, p_next c v = Ok r /\ real c r /\ (value c v < value c r)%Q /\
      (forall w, real c w -> (value c v < value c w)%Q -> (value c r <= value c w)%Q)) /\
  (v <> - maxreal c ->
    exists r, p_prev c v = Ok r /\ real c r /\ (value c r < value c v)%Q /\
      (forall w, real c w -> (value c w < value c v)%Q -> (value c w <= value c r)%Q)) /\
  p_prev c (- maxreal c) = Ok (- maxreal c) /\
  p_next c (- maxreal c) = Ok (- maxreal c).
Proof. exact (next_prev c v). Qed.
Print Assumptions C28_next_prev_partial.
Theorem C28_next_max c :
  valid_cfg c ->
  (csp c = WithNanInf -> p_next c (maxreal c) = Ok (inf_of c false)) /\
  (csp c <> WithNanInf -> cN c = cH c -> cH c < 32 -> p_next c (maxreal c) = Ok (exceptional c)) /\
  (csp c <> WithNanInf -> cN c = cH c -> 32 <= cH c -> p_next c (maxreal c) = UB SignedOverflow) /\
  (csp c <> WithNanInf -> cN c < cH c ->
     p_next c (maxreal c) = Ok (2 ^ (cN c - 1)) /\ ~ pattern c (2 ^ (cN c - 1))).
Proof. exact (next_max c). Qed.
Print Assumptions C28_next_max.
Theorem C28_next_refuted :
  exists c, valid_cfg c /\ p_next c (- maxreal c) = Ok (- maxreal c) /\
    (exists r, p_next c (maxreal c) = Ok r /\ ~ real c r).
Proof. exact next_refuted. Qed.
Print Assumptions C28_next_refuted.
Example C28_ex : valid_cfg p16 /\ real p16 (-20001) /\ -20001 <> maxreal p16 /\ -20001 <> - maxreal p16.
Proof. ex. Qed.

(** C29. The constants. *)
Theorem C29_constants c : valid_cfg c ->
  (value c (p_zero c) == 0)%Q /\ (value c (p_one c) == 1)%Q /\ (value c (p_mone c) == -1)%Q /\
  (value c (p_two c) == 2)%Q /\
  real c (p_zero c) /\ real c (p_one c) /\ real c (p_mone c) /\
  ((csp c = WithNanInf -> cN c <> 3) -> real c (p_two c)) /\
  real c (p_max c) /\ real c (p_min c) /\ real c (p_lowest c) /\
  (forall w, real c w -> (value c (p_lowest c) <= value c w <= value c (p_max c))%Q) /\
  (0 < value c (p_min c))%Q /\
  (forall w, real c w -> (0 < value c w)%Q -> (value c (p_min c) <= value c w)%Q) /\
  p_nan c = exceptional c /\ p_pinf c = inf_of c false /\ p_inf c = inf_of c false /\ p_ninf c = inf_of c true.
Proof. exact (constants c). Qed.
Print Assumptions C29_constants.
Example C29_ex : valid_cfg p12 /\ cN p12 <> 3 /\ p_two p12 = 1152 /\ p_one p12 = 1024 /\ p_max p12 = 2047.
Proof. ex. Qed.

(** C30. Full statement: onehalf() is a posit denoting 1/2. It does when the holder has exactly N bits;
    otherwise it is above 1 or no posit at all. *)
Theorem C30_onehalf_partial c : valid_cfg c -> cH c = cN c ->
  real c (p_onehalf c) /\ (value c (p_onehalf c) == 1 # 2)%Q.
Proof. exact (onehalf_exact c). Qed.
Print Assumptions C30_onehalf_partial.
Theorem C30_onehalf_refuted c : valid_cfg c -> cN c < cH c ->
  2 ^ (cN c - 2) < p_onehalf c /\ (real c (p_onehalf c) -> (1 < value c (p_onehalf c))%Q).
Proof. exact (onehalf_bad c). Qed.
Print Assumptions C30_onehalf_refuted.
Example C30_ex : valid_cfg p16 /\ cH p16 = cN p16 /\ valid_cfg p12 /\ cN p12 < cH p12 /\ ~ real p12 (p_onehalf p12).
Proof. ex. Qed.
