(** The bell curve gauss2. *)
From Coq Require Import ZArith QArith Qabs List Lia.
From Verif Require Import Res Cfg Spec SpecTab Posit Configs Examples Tab Gauss GaussProof GaussSimd.
Import ListNotations.
Open Scope Z_scope.

(** C132. Full statement: for every type it is offered for, and for all numbers x, mu and sigma <> 0, gauss2(x, mu, sigma)
    is defined and in (0, 1]; it is 1 exactly when x is mu; it depends only on |x - mu| and |sigma|; it does not grow when
    |x - mu| grows or |sigma| shrinks. All of it holds of posit8. *)
Theorem C132_posit8_partial x mu sigma : real p8 x -> real p8 mu -> real p8 sigma -> sigma <> 0 ->
  exists r, t8_gauss2 x mu sigma = Ok r /\ real p8 r /\ (0 < value p8 r)%Q /\ (value p8 r <= 1)%Q /\ ((value p8 r == 1)%Q <-> x = mu).
Proof. exact (g8_bell x mu sigma). Qed.
Print Assumptions C132_posit8_partial.
Theorem C132_posit8_symmetric x mu sigma y nu tau : real p8 x -> real p8 mu -> real p8 sigma -> sigma <> 0 -> real p8 y -> real p8 nu -> real p8 tau -> tau <> 0 ->
  (Qabs (value p8 x - value p8 mu) == Qabs (value p8 y - value p8 nu))%Q -> (Qabs (value p8 tau) == Qabs (value p8 sigma))%Q ->
  t8_gauss2 x mu sigma = t8_gauss2 y nu tau.
Proof. exact (g8_equal x mu sigma y nu tau). Qed.
Print Assumptions C132_posit8_symmetric.
Theorem C132_posit8_falls x mu sigma y nu tau r t : real p8 x -> real p8 mu -> real p8 sigma -> sigma <> 0 -> real p8 y -> real p8 nu -> real p8 tau -> tau <> 0 ->
  (Qabs (value p8 x - value p8 mu) <= Qabs (value p8 y - value p8 nu))%Q -> (Qabs (value p8 tau) <= Qabs (value p8 sigma))%Q ->
  t8_gauss2 x mu sigma = Ok r -> t8_gauss2 y nu tau = Ok t -> (value p8 t <= value p8 r)%Q.
Proof. exact (g8_mono x mu sigma y nu tau r t). Qed.
Print Assumptions C132_posit8_falls.
(** The value itself: 2^(-((x - mu) / sigma)^2 / 2), each step cut toward zero to a posit. *)
Theorem C132_posit8_steps x mu sigma : real p8 x -> real p8 mu -> real p8 sigma -> sigma <> 0 ->
  exists d q s h r, rounds_tz p8 (value p8 x - value p8 mu) d /\ rounds_tz p8 (value p8 d / value p8 sigma) q /\
    rounds_tz p8 (value p8 q * value p8 q) s /\ rounds_tz p8 (value p8 s / 2) h /\ exp2_trunc p8 (- value p8 h) r /\ t8_gauss2 x mu sigma = Ok r.
Proof. exact (g8_run x mu sigma). Qed.
Print Assumptions C132_posit8_steps.
Theorem C132_posit8_nan x mu sigma : pattern p8 x -> pattern p8 mu -> pattern p8 sigma -> is_nan p8 x \/ is_nan p8 mu \/ is_nan p8 sigma \/ sigma = 0 ->
  t8_gauss2 x mu sigma = Ok (exceptional p8).
Proof. exact (g8_nan x mu sigma). Qed.
Print Assumptions C132_posit8_nan.
Example C132_posit8_ex : real p8 70 /\ real p8 60 /\ real p8 66 /\ t8_gauss2 70 60 66 = Ok 63 /\ t8_gauss2 60 70 66 = Ok 63 /\ t8_gauss2 110 60 66 = Ok 8 /\ t8_gauss2 60 60 66 = Ok 64.
Proof. ex. Qed.

(** posit12: the same where x - mu is defined, with two exceptions: far from mu the result is 0, and very close to mu it is 1. *)
Theorem C132_posit12_partial x mu sigma r : real p12 x -> real p12 mu -> real p12 sigma -> sigma <> 0 -> t12_gauss2 x mu sigma = Ok r ->
  real p12 r /\ (0 <= value p12 r)%Q /\ (value p12 r <= 1)%Q /\ (x = mu -> (value p12 r == 1)%Q).
Proof. exact (g12_bell x mu sigma r). Qed.
Print Assumptions C132_posit12_partial.
Theorem C132_posit12_falls_partial x mu sigma y tau r t : real p12 x -> real p12 mu -> real p12 sigma -> sigma <> 0 -> real p12 y -> real p12 tau -> tau <> 0 ->
  (value p12 mu <= value p12 x /\ value p12 x <= value p12 y)%Q \/ (value p12 y <= value p12 x /\ value p12 x <= value p12 mu)%Q -> (Qabs (value p12 tau) <= Qabs (value p12 sigma))%Q ->
  t12_gauss2 x mu sigma = Ok r -> t12_gauss2 y mu tau = Ok t -> (value p12 t <= value p12 r)%Q.
Proof. exact (g12_mono x mu sigma y tau r t). Qed.
Print Assumptions C132_posit12_falls_partial.
Theorem C132_posit12_symmetric x mu sigma : real p12 x -> real p12 mu -> real p12 sigma -> sigma <> 0 ->
  t12_gauss2 mu x sigma = t12_gauss2 x mu sigma /\ t12_gauss2 (t12_neg x) (t12_neg mu) sigma = t12_gauss2 x mu sigma /\ t12_gauss2 x mu (t12_neg sigma) = t12_gauss2 x mu sigma.
Proof. exact (g12_symmetric x mu sigma). Qed.
Print Assumptions C132_posit12_symmetric.
Theorem C132_posit12_defined x mu sigma : real p12 x -> real p12 mu -> real p12 sigma -> sigma <> 0 ->
  (near p12 (value p12 x) (value p12 mu) \/ x = 0 \/ mu = 0 -> exists r, t12_gauss2 x mu sigma = Ok r) /\
  (~ near p12 (value p12 x) (value p12 mu) -> t12_gauss2 x mu sigma = UB ShiftCount).
Proof. exact (g12_defined x mu sigma). Qed.
Print Assumptions C132_posit12_defined.
Theorem C132_posit12_refuted : (exists x mu sigma, real p12 x /\ real p12 mu /\ real p12 sigma /\ sigma <> 0 /\ x <> mu /\ t12_gauss2 x mu sigma = UB ShiftCount) /\
  (exists x mu sigma r, real p12 x /\ real p12 mu /\ real p12 sigma /\ sigma <> 0 /\ t12_gauss2 x mu sigma = Ok r /\ ~ (0 < value p12 r)%Q) /\
  (exists x mu sigma r, real p12 x /\ real p12 mu /\ real p12 sigma /\ sigma <> 0 /\ x <> mu /\ t12_gauss2 x mu sigma = Ok r /\ (value p12 r == 1)%Q).
Proof. exact g12_refuted. Qed.
Print Assumptions C132_posit12_refuted.
Example C132_posit12_ex : real p12 1100 /\ real p12 1000 /\ real p12 1030 /\ near p12 (value p12 1100) (value p12 1000) /\ t12_gauss2 1100 1000 1030 = Ok 988 /\
  real p12 1200 /\ t12_gauss2 1200 1000 1030 = Ok 816.
Proof. conj; try ex. apply (near_by _ _ _ 0 (-1)); ex. Qed.

(** simd_posit8_32, the type it was written for: whatever the numbers in the lanes, no lane is below 1. The minus sign takes
    absolute values, the difference is x + |mu|, and the half divides by 5/4. *)
Theorem C132_simd_refuted x mu sigma : length x = 32%nat -> length mu = 32%nat -> length sigma = 32%nat -> Forall byte x -> Forall byte mu -> Forall byte sigma ->
  (forall i, (i < 32)%nat -> real p8 (int8 (nth i x 0)) /\ real p8 (int8 (nth i mu 0)) /\ real p8 (int8 (nth i sigma 0)) /\ int8 (nth i sigma 0) <> 0) ->
  exists r, simd_gauss2 x mu sigma = Ok r /\ length r = 32%nat /\ forall i, (i < 32)%nat -> byte (nth i r 0) /\
    exists d q s h, rounds_tz p8 (value p8 (int8 (nth i x 0%Z)) + Qabs (value p8 (int8 (nth i mu 0%Z)))) d /\ rounds_tz p8 (value p8 d / value p8 (int8 (nth i sigma 0%Z))) q /\
      rounds_tz p8 (value p8 q * value p8 q) s /\ rounds_tz p8 (value p8 s / (5 # 4)) h /\ exp2_trunc p8 (value p8 h) (int8 (nth i r 0)) /\ (1 <= value p8 (int8 (nth i r 0%Z)))%Q.
Proof. exact (gs_run x mu sigma). Qed.
Print Assumptions C132_simd_refuted.
Example C132_simd_ex : Forall byte (repeat 70 32) /\ real p8 (int8 70) /\ real p8 (int8 200) /\ int8 200 <> 0 /\
  simd_gauss2 (repeat 70 32) (repeat 60 32) (repeat 200 32) = Ok (repeat 124 32).
Proof. conj; try (apply Forall_forall; intros x I; apply repeat_spec in I; subst x; unfold byte; lia); ex. Qed.
