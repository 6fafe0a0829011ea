(** Accumulated errors: programs of positive numbers, running sums, sums of products. *)
From Coq Require Import ZArith QArith Qabs Qpower Lia Lqa Bool List.
From Verif Require Import Res CInt Traits Cfg Spec SpecAcc SpecProg SpecDot SpecErr Unpacked Posit Posit2 QPow Core SpecLemmas DecodeProof Ops OpsAdd Room Laws Final1 Final2 Final3 Fma Conv2 Conv3 Convert OpsUnary2 Acc1 Acc2 Acc3.
Import ListNotations.
Open Scope Z_scope.

(** The error of one step. *)
Lemma pow2_opp_le f g : f <= g -> (pow2 (- g) <= pow2 (- f))%Q.
Proof. intros L. apply pow2_le. lia. Qed.
Lemma accurate_step c f x r : valid_cfg c -> 0 <= f -> precise c f x -> faithful c x r -> (Qabs (value c r - x) <= pow2 (- f) * Qabs x)%Q.
Proof.
  intros V F0 P H. destruct P as [Z|(e & S & F)].
  - assert (E : (value c r == x)%Q).
    { pose proof V as V'. vcb V'. rewrite (proj1 (proj2 H) 0); [rewrite Z; apply value_0; assumption|unfold real; pose proof (maxreal_bounds c BN Bes); lia|rewrite Z; apply value_0; assumption]. }
    setoid_replace (value c r - x)%Q with 0%Q by lra. pose proof (pow2_pos (- f)). pose proof (Qabs_nonneg x). change (Qabs 0) with 0%Q. nra.
  - pose proof (faithful_accurate c V x r H e S ltac:(lia)) as A. pose proof (pow2_opp_le f (fracbits c e) F). pose proof (Qabs_nonneg x). nra.
Qed.
Lemma tz_step c f x r : valid_cfg c -> 0 <= f -> (0 < x)%Q -> precise c f x -> rounds_tz c x r -> (0 < value c r)%Q /\ ((1 - pow2 (- f)) * x <= value c r)%Q /\ (value c r <= x)%Q.
Proof.
  intros V F0 X P H. destruct P as [Z|(e & S & F)]; [lra|]. destruct H as [[H _]|[[_ D]|[H _]]]; [lra| |lra].
  destruct (down_error c V x r e X D S ltac:(lia)) as [A _]. split; [apply D|]. split; [|exact A].
  assert (T : rounds_tz c x r) by (right; left; split; assumption). pose proof (tz_accurate c V x r T e S ltac:(lia)) as B. pose proof (pow2_opp_le f (fracbits c e) F).
  rewrite Qabs_neg in B by lra. rewrite Qabs_pos in B by lra. nra.
Qed.
Lemma near_or c a b : valid_cfg c -> frac_fits c -> real c a -> real c b -> a <> 0 -> b <> 0 -> near c (value c a) (value c b) \/ ~ near c (value c a) (value c b).
Proof.
  intros V FF Ra Rb Na Nb. destruct (near_scales c a b V FF Ra Rb Na Nb) as (ea & eb & _ & _ & NE). rewrite NE. lia.
Qed.
Lemma add_tz c a b r : valid_cfg c -> exp_ok c -> mul_fits c -> real c a -> real c b -> 0 <= a -> 0 <= b -> p_add c a b = Ok r -> rounds_tz c (value c a + value c b) r.
Proof.
  intros V X MF Ra Rb Pa Pb E. pose proof V as V'. vcb V'. destruct (Z.eq_dec a 0) as [->|Na].
  { change (p_add c 0 b) with (@Ok Z b) in E. injection E as <-. apply (rounds_tz_comp c BN Bes (value c b)); [rewrite (value_0 c BN Bes); ring|]. apply rounds_tz_exact; assumption. }
  destruct (Z.eq_dec b 0) as [->|Nb].
  { assert (K : p_add c a 0 = Ok a) by (unfold p_add, iszero; destruct (Z.eqb_spec a 0); [contradiction|reflexivity]). rewrite K in E. injection E as <-.
    apply (rounds_tz_comp c BN Bes (value c a)); [rewrite (value_0 c BN Bes); ring|]. apply rounds_tz_exact; assumption. }
  assert (SS : same_sign a b) by (unfold same_sign; lia). destruct (add_same_total c a b V X MF Ra Rb SS) as [A B].
  destruct (near_or c a b V (mul_fits_frac c MF) Ra Rb Na Nb) as [N|N]; [|rewrite B in E by auto; discriminate].
  destruct (room_or c (value c a + value c b) V) as [R|R]; [|rewrite B in E by auto; discriminate]. destruct (A (conj N R)) as (s & E' & T). rewrite E' in E. injection E as <-. exact T.
Qed.

(** ** Programs of positive numbers *)
Section Pow.
  Context (w : Q) (W0 : (0 < w)%Q) (W1 : (w <= 1)%Q).
  Lemma pw_pos n : (0 < w ^ Z.of_nat n)%Q.
  Proof using W0. apply Qpower_0_lt. exact W0. Qed.
  Lemma pw_S n : (w ^ Z.of_nat (S n) == w * w ^ Z.of_nat n)%Q.
  Proof using W0. rewrite Nat2Z.inj_succ, <- Z.add_1_l, Qpower_plus by lra. rewrite Qpower_1_r. reflexivity. Qed.
  Lemma pw_add m n : (w ^ Z.of_nat (m + n) == w ^ Z.of_nat m * w ^ Z.of_nat n)%Q.
  Proof using W0. rewrite Nat2Z.inj_add, Qpower_plus by lra. reflexivity. Qed.
  Lemma pw_le1 n : (w ^ Z.of_nat n <= 1)%Q.
  Proof using W0 W1. induction n; [rewrite Qpower_0_r; apply Qle_refl|]. rewrite pw_S. pose proof (pw_pos n). nra. Qed.
  Lemma pw_anti m n : (m <= n)%nat -> (w ^ Z.of_nat n <= w ^ Z.of_nat m)%Q.
  Proof using W0 W1. intros L. replace n with (m + (n - m))%nat by lia. rewrite pw_add. pose proof (pw_pos m). pose proof (pw_le1 (n - m)). nra. Qed.
End Pow.

Lemma mul_within p q x y x' y' : (0 < p)%Q -> (0 < q)%Q -> (0 < x)%Q -> (0 < y)%Q -> (0 < x')%Q -> (0 < y')%Q -> (p * x <= x')%Q -> (q * y <= y')%Q -> (p * q * (x * y) <= x' * y')%Q.
Proof.
  intros. setoid_replace (p * q * (x * y))%Q with ((p * x) * (q * y))%Q by ring. apply Qmult_le_compat_nonneg; split; try assumption; nra.
Qed.
Lemma div_within p q x y x' y' : (0 < p)%Q -> (0 < q)%Q -> (0 < x)%Q -> (0 < y)%Q -> (0 < x')%Q -> (0 < y')%Q -> (p * x <= x')%Q -> (y' * q <= y)%Q -> (p * q * (x / y) <= x' / y')%Q.
Proof.
  intros. apply Qle_shift_div_l; [assumption|]. setoid_replace (p * q * (x / y) * y')%Q with (p * x * ((y' * q) / y))%Q by (field; lra).
  apply (Qle_trans _ (p * x * 1)); [|lra]. rewrite !(Qmult_comm (p * x)). apply Qmult_le_compat_r; [|nra]. apply Qle_shift_div_r; lra.
Qed.
Section Program.
  Context (c : cfg) (V : valid_cfg c) (X : exp_ok c) (AF : add_fits c) (f : Z) (F1 : 1 <= f).
  Let w : Q := (1 - pow2 (- f))%Q.
  Lemma w_pos : (0 < w)%Q.
  Proof using F1. unfold w. assert (pow2 (- f) < 1)%Q by (change 1%Q with (pow2 0); apply pow2_lt; lia). lra. Qed.
  Lemma w_le1 : (w <= 1)%Q.
  Proof using. unfold w. pose proof (pow2_pos (- f)). lra. Qed.
  Definition close (n : nat) (x y : Q) : Prop := (w ^ Z.of_nat n * x <= y)%Q /\ (w ^ Z.of_nat n * y <= x)%Q.
  Lemma close_refl x : close 0 x x.
  Proof using. unfold close. rewrite Qpower_0_r. split; lra. Qed.
  Lemma close_round n x y r : (0 < x)%Q -> (0 < y)%Q -> close n x y -> rounds_tz c y r -> precise c f y -> (0 < value c r)%Q /\ close (S n) x (value c r) /\ (value c r <= y)%Q.
  Proof using F1 V.
    intros PX PY [A B] T P. destruct (tz_step c f y r V ltac:(lia) PY P T) as (PR & L & U). fold w in L. split; [exact PR|]. split; [|exact U].
    pose proof (pw_pos w w_pos n) as WN. pose proof w_pos as W0. pose proof w_le1 as W1. split; rewrite (pw_S w W0 n).
    - apply (Qle_trans _ (w * y)); [|exact L]. rewrite <- Qmult_assoc, !(Qmult_comm w). apply Qmult_le_compat_r; [exact A|apply Qlt_le_weak, W0].
    - apply (Qle_trans _ (w ^ Z.of_nat n * y)); [|exact B]. rewrite (Qmult_comm w), <- Qmult_assoc, !(Qmult_comm (w ^ Z.of_nat n)).
      apply Qmult_le_compat_r; [|apply Qlt_le_weak, WN]. clear - U W0 W1 PR. generalize dependent w. intros w0 W0 W1. nra.
  Qed.
  Lemma close_weak m n x y : (0 < x)%Q -> (0 < y)%Q -> (m <= n)%nat -> close m x y -> close n x y.
  Proof using F1. intros PX PY L [A B]. pose proof (pw_anti w w_pos w_le1 m n L) as K. split; [apply (Qle_trans _ (w ^ Z.of_nat m * x)); [|exact A]|apply (Qle_trans _ (w ^ Z.of_nat m * y)); [|exact B]]; apply Qmult_le_compat_r; try exact K; lra. Qed.
  Lemma program_error e : forall r, positive c e -> precise_steps c f e -> eval c e = Ok r ->
    real c r /\ (0 < value c r)%Q /\ (0 < exact c e)%Q /\ close (roundings e) (exact c e) (value c r) /\ (no_division e -> (value c r <= exact c e)%Q).
  Proof using V X AF F1.
    pose proof V as V'. vcb V'. pose proof (add_fits_mul c AF) as MF. pose proof (mul_fits_frac c MF) as FF.
    assert (POS : forall v, real c v -> (0 < value c v)%Q -> 0 < v) by (intros v R P; apply (value_sign c v V R); exact P).
    induction e; intros r P S E; cbn [positive precise_steps eval roundings exact no_division] in *; try contradiction.
    - injection E as <-. destruct P as [R P]. split; [exact R|]. split; [exact P|]. split; [exact P|]. split; [apply close_refl|]. intros _. apply Qle_refl.
    - assert (T : rounds_tz c (inject_Z i) r) by exact (by_room V (of_int c i V X (or_introl FF) ltac:(lia)) E).
      assert (PI : (0 < inject_Z i)%Q) by (unfold Qlt; cbn; lia). destruct (close_round 0 (inject_Z i) (inject_Z i) r PI PI (close_refl _) T S) as (PR & C & U).
      split; [exact (rounds_tz_real c BN Bes _ _ T)|]. auto.
    - destruct P as [P1 P2]. destruct S as (S1 & S2 & S3). destruct (eval c e1) as [x|] eqn:E1; cbn [bind] in E; [|discriminate]. destruct (eval c e2) as [y|] eqn:E2; cbn [bind] in E; [|discriminate].
      destruct (IHe1 x P1 S1 eq_refl) as (RX & PX & QX & [CX1 CX2] & UX). destruct (IHe2 y P2 S2 eq_refl) as (RY & PY & QY & [CY1 CY2] & UY).
      assert (T : rounds_tz c (value c x + value c y) r) by (apply add_tz; try assumption; [pose proof (POS x RX PX); lia|pose proof (POS y RY PY); lia]).
      set (n := Nat.max (roundings e1) (roundings e2)). destruct (close_weak (roundings e1) n _ _ QX PX ltac:(lia) (conj CX1 CX2)) as [A1 A2]. destruct (close_weak (roundings e2) n _ _ QY PY ltac:(lia) (conj CY1 CY2)) as [B1 B2].
      assert (C : close n (exact c e1 + exact c e2) (value c x + value c y)) by (split; rewrite Qmult_plus_distr_r; lra).
      assert (PE : (0 < exact c e1 + exact c e2)%Q) by lra. assert (PV : (0 < value c x + value c y)%Q) by lra.
      destruct (close_round n _ _ r PE PV C T (S3 x y eq_refl eq_refl)) as (PR & C' & U). split; [exact (rounds_tz_real c BN Bes _ _ T)|]. split; [exact PR|]. split; [lra|]. split; [exact C'|]. intros [N1 N2]. pose proof (UX N1). pose proof (UY N2). lra.
    - destruct P as [P1 P2]. destruct S as (S1 & S2 & S3). destruct (eval c e1) as [x|] eqn:E1; cbn [bind] in E; [|discriminate]. destruct (eval c e2) as [y|] eqn:E2; cbn [bind] in E; [|discriminate].
      destruct (IHe1 x P1 S1 eq_refl) as (RX & PX & QX & [CX1 CX2] & UX). destruct (IHe2 y P2 S2 eq_refl) as (RY & PY & QY & [CY1 CY2] & UY).
      assert (T : rounds_tz c (value c x * value c y) r) by exact (by_room V (mul_total c x y V X MF RX RY) E).
      pose proof (pw_pos w w_pos (roundings e1)) as W1. pose proof (pw_pos w w_pos (roundings e2)) as W2.
      assert (C : close (roundings e1 + roundings e2) (exact c e1 * exact c e2) (value c x * value c y)) by (split; rewrite (pw_add w w_pos); apply mul_within; assumption).
      assert (PE : (0 < exact c e1 * exact c e2)%Q) by nra. assert (PV : (0 < value c x * value c y)%Q) by nra.
      destruct (close_round _ _ _ r PE PV C T (S3 x y eq_refl eq_refl)) as (PR & C' & U). split; [exact (rounds_tz_real c BN Bes _ _ T)|]. split; [exact PR|]. split; [exact PE|]. split; [exact C'|].
      intros [N1 N2]. pose proof (UX N1). pose proof (UY N2). apply (Qle_trans _ _ _ U). apply Qmult_le_compat_nonneg; split; lra.
    - destruct P as [P1 P2]. destruct S as (S1 & S2 & S3). destruct (eval c e1) as [x|] eqn:E1; cbn [bind] in E; [|discriminate]. destruct (eval c e2) as [y|] eqn:E2; cbn [bind] in E; [|discriminate].
      destruct (IHe1 x P1 S1 eq_refl) as (RX & PX & QX & [CX1 CX2] & UX). destruct (IHe2 y P2 S2 eq_refl) as (RY & PY & QY & [CY1 CY2] & UY).
      assert (NY : y <> 0) by (pose proof (POS y RY PY); lia).
      assert (T : rounds_tz c (value c x / value c y) r) by exact (by_room V (div_total c x y V X MF RX RY NY) E).
      pose proof (pw_pos w w_pos (roundings e1)) as W1. pose proof (pw_pos w w_pos (roundings e2)) as W2.
      assert (C : close (roundings e1 + roundings e2) (exact c e1 / exact c e2) (value c x / value c y)) by (split; rewrite (pw_add w w_pos); apply div_within; try assumption; lra).
      assert (PE : (0 < exact c e1 / exact c e2)%Q) by (apply Qlt_shift_div_l; lra). assert (PV : (0 < value c x / value c y)%Q) by (apply Qlt_shift_div_l; lra).
      destruct (close_round _ _ _ r PE PV C T (S3 x y eq_refl eq_refl)) as (PR & C' & U). split; [exact (rounds_tz_real c BN Bes _ _ T)|]. split; [exact PR|]. split; [exact PE|]. split; [exact C'|]. intros [].
  Qed.
End Program.
