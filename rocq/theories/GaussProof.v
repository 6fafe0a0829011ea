(** gauss2 over posit8 and posit12. *)
From Coq Require Import ZArith QArith Qabs List Bool Lia Lqa.
From Verif Require Import Res CInt Traits Unpacked Cfg Posit Configs Spec QPow Core SpecLemmas Arith Ops OpsAdd OpsUnary DecodeProof EncodeProof UOps UAdd Specials Room Laws Final1 Final2 Final3 Mono SpecTab Tab TabProof TabProof2 TabProof3 TabProof4 Acc3
  Gen GenProof GenProof2 GenProof3 GenProof4 GenProof5 Exp12a Exp12b Exp12d Gauss.
Import ListNotations.
Open Scope Z_scope.

Lemma value_abs c v : valid_cfg c -> real c v -> (value c (Z.abs v) == Qabs (value c v))%Q.
Proof.
  intros V R. vcb V. destruct (value_sign c v V R) as [N P]. destruct (Z_lt_le_dec v 0) as [L|L].
  - rewrite Z.abs_neq by lia. apply N in L. rewrite (value_opp c BN Bes v), Qabs_neg by lra. reflexivity.
  - rewrite Z.abs_eq by lia. destruct (Z.eq_dec v 0) as [->|D]; [rewrite (value_0 c BN Bes); reflexivity|].
    rewrite Qabs_pos; [reflexivity|]. assert (0 < v) as K by lia. apply P in K. lra.
Qed.
Lemma real_abs c v : valid_cfg c -> real c v -> real c (Z.abs v).
Proof. intros V R. vcb V. destruct (Z.abs_spec v) as [[_ ->]|[_ ->]]; [exact R|apply real_opp; assumption]. Qed.
Lemma tz_abs c x r : valid_cfg c -> rounds_tz c x r -> rounds_tz c (Qabs x) (Z.abs r).
Proof.
  intros V H. vcb V. destruct (rounds_sign_ok c x r V H) as (S0 & S1 & S2). destruct (Qlt_le_dec x 0) as [L|L].
  - assert (K : r < 0) by tauto. rewrite Z.abs_neq by lia. apply (rounds_tz_comp c BN Bes (- x)); [rewrite Qabs_neg by lra; reflexivity|]. apply rounds_tz_opp; assumption.
  - assert (0 <= r) by (destruct (Qeq_dec x 0) as [E|E]; [assert (r = 0) by tauto; lia|assert (0 < x)%Q by (apply Qle_lteq in L; destruct L as [L|L]; [exact L|exfalso; apply E; symmetry; exact L]); assert (0 < r) by tauto; lia]).
    rewrite Z.abs_eq by lia. apply (rounds_tz_comp c BN Bes x); [rewrite Qabs_pos by lra; reflexivity|exact H].
Qed.
(** Truncation keeps the order of magnitudes. *)
Lemma tz_abs_mono c x y r s : valid_cfg c -> (Qabs x <= Qabs y)%Q -> rounds_tz c x r -> rounds_tz c y s -> (Qabs (value c r) <= Qabs (value c s))%Q.
Proof.
  intros V L A B. pose proof (tz_abs c x r V A) as A'. pose proof (tz_abs c y s V B) as B'. pose proof V as V'. vcb V'.
  pose proof (rounds_tz_mono c _ _ _ _ V L A' B') as M. rewrite <- (value_abs c r V (rounds_tz_real c BN Bes _ _ A)), <- (value_abs c s V (rounds_tz_real c BN Bes _ _ B)).
  apply real_value_le; [exact V|exact (rounds_tz_real c BN Bes _ _ A')|exact (rounds_tz_real c BN Bes _ _ B')|exact M].
Qed.

(** ** From the difference to the argument of exp2 *)
Section Tail.
  Context (c : cfg) (V : valid_cfg c).
  (** [h] is half of the square of d/sigma, each step truncated. *)
  Definition tail (d sigma h : Z) : Prop := exists q s, rounds_tz c (value c d / value c sigma) q /\ rounds_tz c (value c q * value c q) s /\ rounds_tz c (value c s / 2) h.
  Lemma qsquare_abs a b : (Qabs a <= Qabs b)%Q -> (Qabs (a * a) <= Qabs (b * b))%Q.
  Proof. intros L. rewrite !Qabs_Qmult. pose proof (Qabs_nonneg a). nra. Qed.
  Lemma qsq_nonneg a : (0 <= a * a)%Q.
  Proof. nra. Qed.
  Lemma tail_real d sigma h : tail d sigma h -> real c h /\ 0 <= h.
  Proof.
    intros (q & s & Q1 & S1 & H1). pose proof V as V'. vcb V'. split; [exact (rounds_tz_real c BN Bes _ _ H1)|].
    assert (R0 : rounds_tz c 0 0) by (left; split; reflexivity).
    assert (S0 : 0 <= s) by (apply (rounds_tz_mono c 0 (value c q * value c q)); try assumption; apply qsq_nonneg).
    apply (rounds_tz_mono c 0 (value c s / 2)); try assumption. apply Qle_shift_div_l; [reflexivity|]. rewrite Qmult_0_l.
    rewrite <- (value_0 c BN Bes). pose proof (real_bounds c BN Bes _ (rounds_tz_real c BN Bes _ _ S1)). apply (value_le c BN Bes); lia.
  Qed.
  Lemma value_zero v : real c v -> (value c v == 0)%Q <-> v = 0.
  Proof.
    intros R. pose proof V as V'. vcb V'. split; [|intros ->; apply value_0; assumption]. intros E. destruct (value_sign c v V R) as [N P].
    destruct (Z.lt_trichotomy v 0) as [L|[L|L]]; [apply N in L; lra|exact L|apply P in L; lra].
  Qed.
  Lemma tail_zero d sigma h : real c d -> real c sigma -> sigma <> 0 -> tail d sigma h -> h = 0 <-> d = 0.
  Proof.
    intros RD RS NS (q & s & Q1 & S1 & H1). pose proof V as V'. vcb V'.
    pose proof (rounds_tz_real c BN Bes _ _ Q1) as RQ. pose proof (rounds_tz_real c BN Bes _ _ S1) as RSQ.
    rewrite (tz_zero c _ _ V H1). pose proof (tz_zero c _ _ V S1) as ZS. pose proof (tz_zero c _ _ V Q1) as ZQ.
    rewrite <- (value_zero d RD). pose proof (value_zero sigma RS) as Zsig. pose proof (value_zero q RQ) as Zq. pose proof (value_zero s RSQ) as Zs.
    assert (NSV : ~ (value c sigma == 0)%Q) by tauto.
    assert (E1 : (value c s / 2 == 0)%Q <-> (value c s == 0)%Q) by (split; intros E; [setoid_replace (value c s) with (2 * (value c s / 2))%Q by field; rewrite E; reflexivity|rewrite E; reflexivity]).
    assert (E2 : (value c q * value c q == 0)%Q <-> (value c q == 0)%Q) by (split; intros E; [apply Qmult_integral in E; tauto|rewrite E; reflexivity]).
    assert (E3 : (value c d / value c sigma == 0)%Q <-> (value c d == 0)%Q) by (split; intros E; [setoid_replace (value c d) with (value c d / value c sigma * value c sigma)%Q by (field; exact NSV); rewrite E; reflexivity|rewrite E; reflexivity]).
    tauto.
  Qed.
  Lemma tail_mono d sigma h d' sigma' h' : (Qabs (value c d) <= Qabs (value c d'))%Q -> (Qabs (value c sigma') <= Qabs (value c sigma))%Q -> ~ (value c sigma' == 0)%Q ->
    tail d sigma h -> tail d' sigma' h' -> h <= h'.
  Proof.
    intros LD LS NZ T T'. pose proof (tail_real _ _ _ T) as (RH & PH). pose proof (tail_real _ _ _ T') as (RH' & PH').
    destruct T as (q & s & Q1 & S1 & H1), T' as (q' & s' & Q1' & S1' & H1'). pose proof V as V'. vcb V'.
    assert (P' : (0 < Qabs (value c sigma'))%Q) by (pose proof (Qabs_nonneg (value c sigma')) as K; apply Qle_lteq in K; destruct K as [K|K]; [exact K|exfalso; apply NZ; revert K; apply Qabs_case; intros; lra]).
    assert (LQ : (Qabs (value c q) <= Qabs (value c q'))%Q).
    { refine (tz_abs_mono c _ _ _ _ V _ Q1 Q1'). unfold Qdiv. rewrite !Qabs_Qmult, !Qabs_Qinv. pose proof (Qabs_nonneg (value c d)).
      apply (Qle_trans _ (Qabs (value c d) * / Qabs (value c sigma'))).
      - rewrite !(Qmult_comm (Qabs (value c d))). apply Qmult_le_compat_r; [|assumption].
        apply Qle_shift_inv_l; [lra|]. rewrite Qmult_comm. apply Qle_shift_div_r; lra.
      - apply Qmult_le_compat_r; [exact LD|]. apply Qlt_le_weak, Qinv_lt_0_compat, P'. }
    pose proof (tz_abs_mono c _ _ _ _ V (qsquare_abs _ _ LQ) S1 S1') as LSQ.
    assert (K : (Qabs (value c s / 2) <= Qabs (value c s' / 2))%Q) by (unfold Qdiv; rewrite !Qabs_Qmult; apply Qmult_le_compat_r; [exact LSQ|apply Qabs_nonneg]).
    pose proof (tz_abs_mono c _ _ _ _ V K H1 H1') as LH. rewrite <- !(value_abs c) in LH by assumption. rewrite !Z.abs_eq in LH by assumption.
    apply (value_le_inv c BN Bes); [apply real_bounds; assumption|apply real_bounds; assumption|exact LH].
  Qed.
  Lemma exp2_trunc_mono x y v w : (x <= y)%Q -> exp2_trunc c x v -> exp2_trunc c y w -> (value c v <= value c w)%Q.
  Proof.
    intros L (RV & PV & _ & H) (RW & PW & M & _). destruct H as [H|H]; [|apply H; assumption]. apply M; try assumption. exact (le_exp2_up _ _ _ PV H L).
  Qed.
End Tail.
Lemma le_exp2_zero y : le_exp2 y 0 -> (y <= 1)%Q.
Proof. intros H. exact H. Qed.
Lemma trunc_le_one c x v one : valid_cfg c -> real c one -> (value c one == 1)%Q -> (x <= 0)%Q -> exp2_trunc c x v -> (value c v <= 1)%Q.
Proof.
  intros V RO O L (RV & PV & _ & H). destruct H as [H|H].
  - apply le_exp2_zero. exact (le_exp2_up _ _ _ PV H L).
  - rewrite <- O. apply H; [exact RO|lra].
Qed.
Lemma not_le_one x : (x < 0)%Q -> ~ le_exp2 1 x.
Proof. intros L. apply (not_le_exp2 1 0); [reflexivity| |exact L]. vm_compute. discriminate. Qed.

(** ** posit8 *)
Lemma one8 : real p8 64 /\ (value p8 64 == 1)%Q.
Proof. split; [unfold real; cbn; lia|vm_compute; reflexivity]. Qed.
Lemma g8_run x mu sigma : real p8 x -> real p8 mu -> real p8 sigma -> sigma <> 0 ->
  exists d q s h r, rounds_tz p8 (value p8 x - value p8 mu) d /\ rounds_tz p8 (value p8 d / value p8 sigma) q /\
    rounds_tz p8 (value p8 q * value p8 q) s /\ rounds_tz p8 (value p8 s / 2) h /\ exp2_trunc p8 (- value p8 h) r /\ t8_gauss2 x mu sigma = Ok r.
Proof.
  intros RX RM RS NS. pose proof valid_p8 as V. vcb V.
  destruct (t8_sub_rounds x mu RX RM) as (d & E1 & D). destruct (t8_div_rounds d sigma (rounds_tz_real p8 BN Bes _ _ D) RS NS) as (q & E2 & Q).
  destruct (t8_square_rounds q (rounds_tz_real p8 BN Bes _ _ Q)) as (s & E3 & S). destruct (t8_half_rounds s (rounds_tz_real p8 BN Bes _ _ S)) as (h & E4 & H).
  pose proof (rounds_tz_real p8 BN Bes _ _ H) as RH. destruct (t8_exp2_trunc (- h) (real_opp p8 BN Bes h RH)) as (r & E5 & R).
  exists d, q, s, h, r. do 4 (split; [assumption|]). split.
  - destruct R as (R1 & R2 & R3 & R4). split; [exact R1|]. split; [exact R2|]. pose proof (value_opp p8 BN Bes h) as VO. split.
    + intros w RW PW L. apply R3; try assumption. apply (le_exp2_comp _ (value p8 w) _ (- value p8 h) (Qeq_refl _) VO), L.
    + destruct R4 as [R4|R4]; [left|right; exact R4]. apply (le_exp2_comp _ (value p8 r) _ (- value p8 h) (Qeq_refl _) VO), R4.
  - unfold t8_gauss2. rewrite E1. cbn [bind]. rewrite E2. cbn [bind]. rewrite E3. cbn [bind]. rewrite E4. cbn [bind]. rewrite (t8_neg_real h RH). exact E5.
Qed.
Lemma real_nz c v : valid_cfg c -> real c v -> v <> 0 -> ~ (value c v == 0)%Q.
Proof. intros V R N E. apply (value_zero c V v R) in E. contradiction. Qed.
Lemma g8_bell x mu sigma : real p8 x -> real p8 mu -> real p8 sigma -> sigma <> 0 ->
  exists r, t8_gauss2 x mu sigma = Ok r /\ real p8 r /\ (0 < value p8 r)%Q /\ (value p8 r <= 1)%Q /\ ((value p8 r == 1)%Q <-> x = mu).
Proof.
  intros RX RM RS NS. pose proof valid_p8 as V. pose proof V as V'. vcb V'. destruct (g8_run x mu sigma RX RM RS NS) as (d & q & s & h & r & D & Q & S & H & R & E). destruct one8 as [RO O].
  assert (T : tail p8 d sigma h) by (exists q, s; auto). destruct (tail_real p8 V _ _ _ T) as [RH PH]. pose proof (rounds_tz_real p8 BN Bes _ _ D) as RD.
  pose proof (tail_zero p8 V _ _ _ RD RS NS T) as TZ. pose proof (tz_zero p8 _ _ V D) as DZ.
  assert (VH : (0 <= value p8 h)%Q) by (rewrite <- (value_0 p8 BN Bes); pose proof (real_bounds p8 BN Bes _ RH); apply (value_le p8 BN Bes); lia).
  assert (NX : (- value p8 h <= 0)%Q) by lra.
  exists r. split; [exact E|]. split; [apply R|]. split; [apply R|]. split; [exact (trunc_le_one p8 _ r 64 V RO O NX R)|].
  assert (XM : x = mu <-> h = 0).
  { rewrite TZ, DZ. split; [intros ->; lra|]. intros K. assert (K' : (value p8 x == value p8 mu)%Q) by lra. pose proof (real_bounds p8 BN Bes _ RX). pose proof (real_bounds p8 BN Bes _ RM).
    apply Z.le_antisymm; apply (value_le_inv p8 BN Bes); try assumption; lra. }
  rewrite XM. pose proof R as R0. destruct R as (RR & PR & MR & BR). split.
  - intros V1. destruct (Z.eq_dec h 0) as [?|NH]; [assumption|exfalso]. assert (0 < value p8 h)%Q by (apply (value_sign p8 h V RH); lia).
    destruct BR as [BR|BR].
    + apply (not_le_one (- value p8 h)); [lra|]. apply (le_exp2_comp _ _ _ _ V1 (Qeq_refl _)), BR.
    + assert (R1 : real p8 1) by (unfold real; cbn; lia). assert (K : (value p8 1 == 1 # 64)%Q) by (vm_compute; reflexivity). pose proof (BR 1 R1 ltac:(lra)) as BR1. lra.
  - intros ->. apply Qle_antisym; [apply (trunc_le_one p8 (- value p8 0) r 64 V RO O NX); exact R0|]. rewrite <- O at 1. apply MR; [exact RO|lra|].
    apply (le_exp2_comp _ 1 _ 0 O); [rewrite (value_0 p8 BN Bes); reflexivity|]. vm_compute. discriminate.
Qed.
(** A point at least as far from its mean, in units of its own deviation, gets no larger a value. *)
Lemma g8_mono x mu sigma y nu tau r t : real p8 x -> real p8 mu -> real p8 sigma -> sigma <> 0 -> real p8 y -> real p8 nu -> real p8 tau -> tau <> 0 ->
  (Qabs (value p8 x - value p8 mu) <= Qabs (value p8 y - value p8 nu))%Q -> (Qabs (value p8 tau) <= Qabs (value p8 sigma))%Q ->
  t8_gauss2 x mu sigma = Ok r -> t8_gauss2 y nu tau = Ok t -> (value p8 t <= value p8 r)%Q.
Proof.
  intros RX RM RS NS RY RN RT NT LD LS E E'. pose proof valid_p8 as V. pose proof V as V'. vcb V'.
  destruct (g8_run x mu sigma RX RM RS NS) as (d & q & s & h & r1 & D & Q & S & H & R & K). rewrite K in E. injection E as <-.
  destruct (g8_run y nu tau RY RN RT NT) as (d' & q' & s' & h' & t1 & D' & Q' & S' & H' & R' & K'). rewrite K' in E'. injection E' as <-.
  assert (T : tail p8 d sigma h) by (exists q, s; auto). assert (T' : tail p8 d' tau h') by (exists q', s'; auto).
  pose proof (tz_abs_mono p8 _ _ _ _ V LD D D') as LDD. pose proof (tail_mono p8 V _ _ _ _ _ _ LDD LS (real_nz p8 tau V RT NT) T T') as LH.
  refine (exp2_trunc_mono p8 (- value p8 h') (- value p8 h) t1 r1 _ R' R). apply Qopp_le_compat. apply real_value_le; try assumption; [exact (rounds_tz_real p8 BN Bes _ _ H)|exact (rounds_tz_real p8 BN Bes _ _ H')].
Qed.
Lemma g8_equal x mu sigma y nu tau : real p8 x -> real p8 mu -> real p8 sigma -> sigma <> 0 -> real p8 y -> real p8 nu -> real p8 tau -> tau <> 0 ->
  (Qabs (value p8 x - value p8 mu) == Qabs (value p8 y - value p8 nu))%Q -> (Qabs (value p8 tau) == Qabs (value p8 sigma))%Q ->
  t8_gauss2 x mu sigma = t8_gauss2 y nu tau.
Proof.
  intros RX RM RS NS RY RN RT NT LD LS. pose proof valid_p8 as V. vcb V.
  destruct (g8_bell x mu sigma RX RM RS NS) as (r & E & RR & _). destruct (g8_bell y nu tau RY RN RT NT) as (t & E' & RT' & _).
  pose proof (g8_mono x mu sigma y nu tau r t RX RM RS NS RY RN RT NT ltac:(lra) ltac:(lra) E E') as A. pose proof (g8_mono y nu tau x mu sigma t r RY RN RT NT RX RM RS NS ltac:(lra) ltac:(lra) E' E) as B.
  rewrite E, E'. f_equal. pose proof (real_bounds p8 BN Bes _ RR). pose proof (real_bounds p8 BN Bes _ RT'). apply Z.le_antisymm; apply (value_le_inv p8 BN Bes); assumption.
Qed.
Lemma nan8 : is_nan p8 (exceptional p8) /\ pattern p8 (exceptional p8).
Proof. split; [split; [discriminate|reflexivity]|unfold pattern; cbn; lia]. Qed.
Lemma g8_nan x mu sigma : pattern p8 x -> pattern p8 mu -> pattern p8 sigma -> is_nan p8 x \/ is_nan p8 mu \/ is_nan p8 sigma \/ sigma = 0 -> t8_gauss2 x mu sigma = Ok (exceptional p8).
Proof.
  intros PX PM PS H. destruct t8_unary_nan as (_ & U1 & _ & U2 & U3 & U4). pose proof valid_p8 as V. vcb V. destruct nan8 as [NE PE].
  assert (G : exists d, t8_sub x mu = Ok d /\ t8_div d sigma = Ok (exceptional p8)).
  { assert (C : (is_nan p8 x \/ is_nan p8 mu) \/ real p8 x /\ real p8 mu).
    { destruct (split_pattern p8 tab_p8 x PX) as [RX| ->]; [|left; left; exact NE]. destruct (split_pattern p8 tab_p8 mu PM) as [RM| ->]; [right; split; assumption|left; right; exact NE]. }
    destruct C as [C|[RX RM]].
    - exists (exceptional p8). split; [apply (t8_nan_any x mu PX PM C)|]. apply (t8_nan_any (exceptional p8) sigma PE PS). left. exact NE.
    - destruct (t8_sub_rounds x mu RX RM) as (d & E & D). exists d. split; [exact E|]. assert (PD : pattern p8 d) by (apply (real8 d), (rounds_tz_real p8 BN Bes _ _ D)).
      assert (NN : forall v, real p8 v -> ~ is_nan p8 v) by (intros v (L & _) [_ K]; change (- maxreal p8) with (-127) in L; change (- 2 ^ (cN p8 - 1)) with (-128) in K; lia).
      destruct H as [H|[H|[H| ->]]]; [exfalso; exact (NN x RX H)|exfalso; exact (NN mu RM H)| |exact (t8_div_zero d PD)]. apply (t8_nan_any d sigma PD PS). right. exact H. }
  destruct G as (d & E1 & E2). unfold t8_gauss2. rewrite E1. cbn [bind]. rewrite E2. cbn [bind]. rewrite U2. cbn [bind]. rewrite U1. cbn [bind]. rewrite U4. exact U3.
Qed.

(** ** posit12 *)
Lemma one12 : real p12 1024 /\ (value p12 1024 == 1)%Q.
Proof. split; [unfold real; cbn; lia|vm_compute; reflexivity]. Qed.
Definition e12 (x : Q) (r : Z) : Prop :=
  (x <= -143)%Q /\ r = 0 \/ (-143 < x)%Q /\ (x < -1 # 2 ^ 25)%Q /\ exp2_trunc p12 x r \/ ((-1 # 2 ^ 25) <= x)%Q /\ (x <= 0)%Q /\ r = 1024.
Lemma t12_neg_real v : real p12 v -> t12_neg v = - v.
Proof. intros R. pose proof (proj1 (real_t12 v) R) as RB. apply i16_small. lia. Qed.
Lemma tiny12 : (-143 < (-1 # 2 ^ 25))%Q /\ ((-1 # 2 ^ 25) < 0)%Q.
Proof. split; reflexivity. Qed.
Lemma e12_run h : real p12 h -> 0 <= h -> exists r, t12_exp2 (t12_neg h) = Ok r /\ e12 (- value p12 h) r.
Proof.
  intros RH PH. pose proof valid_p12 as V. vcb V. rewrite (t12_neg_real h RH). pose proof (real_opp p12 BN Bes h RH) as RN. pose proof (value_opp p12 BN Bes h) as VO.
  assert (VH : (0 <= value p12 h)%Q) by (rewrite <- (value_0 p12 BN Bes); pose proof (real_bounds p12 BN Bes _ RH); apply (value_le p12 BN Bes); lia). destruct tiny12 as [K1 K2].
  destruct (Qlt_le_dec (-143) (value p12 (- h))) as [L|L].
  2:{ exists 0. split; [exact (t12_exp2_low _ RN L)|]. left. split; [lra|reflexivity]. }
  destruct (Qlt_le_dec (value p12 (- h)) (-1 # 2 ^ 25)) as [U|U].
  { destruct (t12_exp2_trunc (- h) RN (or_intror (conj L U))) as (r & E & T). exists r. split; [exact E|]. right. left. split; [lra|]. split; [lra|].
    destruct T as (T1 & T2 & T3 & T4). split; [exact T1|]. split; [exact T2|]. split.
    - intros w RW PW LE. apply T3; try assumption. apply (le_exp2_comp _ (value p12 w) _ (- value p12 h) (Qeq_refl _) VO), LE.
    - destruct T4 as [T4|T4]; [left|right; exact T4]. apply (le_exp2_comp _ (value p12 r) _ (- value p12 h) (Qeq_refl _) VO), T4. }
  exists 1024. split; [|right; right; split; [lra|split; [lra|reflexivity]]].
  destruct (Z.eq_dec h 0) as [->|N]; [vm_compute; reflexivity|]. assert (0 < value p12 h)%Q by (apply (value_sign p12 h V RH); lia).
  assert (C : ((-1 # 2 ^ 25) <= value p12 (- h) < 0)%Q) by (split; [exact U|lra]). exact (proj1 (t12_exp2_tiny (- h) RN C)).
Qed.
Lemma e12_bounds x r : (x <= 0)%Q -> e12 x r -> real p12 r /\ (0 <= value p12 r)%Q /\ (value p12 r <= 1)%Q.
Proof.
  intros L H. pose proof valid_p12 as V. pose proof V as V'. vcb V'. destruct one12 as [RO O]. destruct H as [[_ ->]|[(_ & _ & T)|(_ & _ & ->)]].
  - split; [unfold real; cbn; lia|]. rewrite (value_0 p12 BN Bes). split; discriminate.
  - split; [apply T|]. split; [apply Qlt_le_weak; apply T|]. exact (trunc_le_one p12 x r 1024 V RO O L T).
  - split; [exact RO|]. lra.
Qed.
Lemma e12_mono x y r s : (x <= y)%Q -> (y <= 0)%Q -> e12 x r -> e12 y s -> (value p12 r <= value p12 s)%Q.
Proof.
  intros L U A B. pose proof valid_p12 as V. pose proof V as V'. vcb V'. destruct one12 as [RO O]. destruct tiny12 as [K1 K2].
  destruct (e12_bounds x r ltac:(lra) A) as (RR & R0 & R1). destruct (e12_bounds y s U B) as (RS & S0 & S1).
  destruct B as [[B ->]|[(B & B' & TB)|(B & B' & ->)]]; [|destruct A as [[A ->]|[(A & A' & TA)|(A & A' & ->)]]|lra].
  - destruct A as [[A ->]|[(A & A' & TA)|(A & A' & ->)]]; lra.
  - rewrite (value_0 p12 BN Bes). exact S0.
  - exact (exp2_trunc_mono p12 x y r s L TA TB).
  - lra.
Qed.
Lemma g12_run x mu sigma r : real p12 x -> real p12 mu -> real p12 sigma -> sigma <> 0 -> t12_gauss2 x mu sigma = Ok r ->
  exists d h, t12_sub x mu = Ok d /\ real p12 d /\ sign_ok (value p12 x - value p12 mu) d /\ tail p12 d sigma h /\ e12 (- value p12 h) r.
Proof.
  intros RX RM RS NS E. pose proof valid_p12 as V. pose proof V as V'. vcb V'. unfold t12_gauss2 in E.
  destruct (t12_sub x mu) as [d|] eqn:E1; cbn [bind] in E; [|discriminate].
  assert (D : real p12 d /\ sign_ok (value p12 x - value p12 mu) d).
  { unfold t12_sub, t12_add in E1. destruct (t12_neg_abs mu RM) as (RN & VN & _). destruct (p_add_faithful p12 x (t12_neg mu) d V exp_p12 ltac:(unfold add_fits; cbn; lia) RX RN E1) as [F S].
    split; [apply F|]. assert (EQ : (value p12 x + value p12 (t12_neg mu) == value p12 x - value p12 mu)%Q) by (rewrite VN; ring). unfold sign_ok in *. rewrite <- EQ. exact S. }
  destruct D as [RD SD]. destruct (t12_div_rounds d sigma RD RS NS) as (q & E2 & Q). rewrite E2 in E. cbn [bind] in E.
  destruct (t12_square_rounds q (rounds_tz_real p12 BN Bes _ _ Q)) as (s & E3 & S). rewrite E3 in E. cbn [bind] in E.
  destruct (t12_half_rounds s (rounds_tz_real p12 BN Bes _ _ S)) as (h & E4 & H). rewrite E4 in E. cbn [bind] in E.
  assert (T : tail p12 d sigma h) by (exists q, s; auto). destruct (tail_real p12 V _ _ _ T) as [RH PH].
  destruct (e12_run h RH PH) as (r' & E5 & R). rewrite E5 in E. injection E as <-. exists d, h. auto.
Qed.
Lemma g12_defined x mu sigma : real p12 x -> real p12 mu -> real p12 sigma -> sigma <> 0 ->
  (near p12 (value p12 x) (value p12 mu) \/ x = 0 \/ mu = 0 -> exists r, t12_gauss2 x mu sigma = Ok r) /\
  (~ near p12 (value p12 x) (value p12 mu) -> t12_gauss2 x mu sigma = UB ShiftCount).
Proof.
  intros RX RM RS NS. pose proof valid_p12 as V. pose proof V as V'. vcb V'. split.
  - intros H. destruct (t12_sub_ok x mu RX RM H) as (d & E1 & F & _). pose proof (proj1 F) as RD.
    destruct (t12_div_rounds d sigma RD RS NS) as (q & E2 & Q). destruct (t12_square_rounds q (rounds_tz_real p12 BN Bes _ _ Q)) as (s & E3 & S).
    destruct (t12_half_rounds s (rounds_tz_real p12 BN Bes _ _ S)) as (h & E4 & H4). assert (T : tail p12 d sigma h) by (exists q, s; auto). destruct (tail_real p12 V _ _ _ T) as [RH PH].
    destruct (e12_run h RH PH) as (r & E5 & _). exists r. unfold t12_gauss2. rewrite E1. cbn [bind]. rewrite E2. cbn [bind]. rewrite E3. cbn [bind]. rewrite E4. cbn [bind]. exact E5.
  - intros H. destruct (t12_neg_abs mu RM) as (RN & VN & _). unfold t12_gauss2, t12_sub.
    rewrite (proj2 (t12_add_ok x (t12_neg mu) RX RN)); [reflexivity|]. intros N. apply H. intros ea eb SA SB. apply (N ea eb SA).
    destruct SB as [S1 S2]. unfold scale. rewrite VN, Qabs_opp. split; assumption.
Qed.
Lemma g12_bell x mu sigma r : real p12 x -> real p12 mu -> real p12 sigma -> sigma <> 0 -> t12_gauss2 x mu sigma = Ok r ->
  real p12 r /\ (0 <= value p12 r)%Q /\ (value p12 r <= 1)%Q /\ (x = mu -> (value p12 r == 1)%Q).
Proof.
  intros RX RM RS NS E. destruct (g12_run x mu sigma r RX RM RS NS E) as (d & h & E1 & RD & SD & T & R). pose proof valid_p12 as V. pose proof V as V'. vcb V'. destruct (tail_real p12 V _ _ _ T) as [RH PH].
  assert (VH : (0 <= value p12 h)%Q) by (rewrite <- (value_0 p12 BN Bes); pose proof (real_bounds p12 BN Bes _ RH); apply (value_le p12 BN Bes); lia).
  destruct (e12_bounds (- value p12 h) r ltac:(lra) R) as (RR & R0 & R1). split; [exact RR|]. split; [exact R0|]. split; [exact R1|]. intros ->. destruct tiny12 as [K1 K2].
  assert (D0 : d = 0) by (apply (proj1 SD); ring). subst d. assert (H0 : h = 0) by (apply (tail_zero p12 V 0 sigma h RD RS NS T); reflexivity). subst h.
  pose proof (value_0 p12 BN Bes) as Z0. destruct one12 as [_ O]. destruct R as [[R _]|[(_ & R & _)|(_ & _ & ->)]]; [lra|lra|exact O].
Qed.
Lemma g12_mono x mu sigma y tau r t : real p12 x -> real p12 mu -> real p12 sigma -> sigma <> 0 -> real p12 y -> real p12 tau -> tau <> 0 ->
  (value p12 mu <= value p12 x /\ value p12 x <= value p12 y)%Q \/ (value p12 y <= value p12 x /\ value p12 x <= value p12 mu)%Q -> (Qabs (value p12 tau) <= Qabs (value p12 sigma))%Q ->
  t12_gauss2 x mu sigma = Ok r -> t12_gauss2 y mu tau = Ok t -> (value p12 t <= value p12 r)%Q.
Proof.
  intros RX RM RS NS RY RT NT L LS E E'. pose proof valid_p12 as V. pose proof V as V'. vcb V'.
  destruct (g12_run x mu sigma r RX RM RS NS E) as (d & h & E1 & RD & SD & T & R). destruct (g12_run y mu tau t RY RM RT NT E') as (d' & h' & E1' & RD' & SD' & T' & R').
  destruct (t12_neg_abs mu RM) as (RN & VN & _). unfold t12_sub, t12_add in E1, E1'.
  assert (LD : (Qabs (value p12 d) <= Qabs (value p12 d'))%Q).
  { assert (MF : mul_fits p12) by (unfold mul_fits; cbn; lia). assert (M : forall a b u w, real p12 a -> real p12 b -> (value p12 a <= value p12 b)%Q -> p_add p12 a (t12_neg mu) = Ok u -> p_add p12 b (t12_neg mu) = Ok w -> real p12 u -> real p12 w -> (value p12 u <= value p12 w)%Q).
    { intros a b u w RA RB LAB EA EB RU RW. apply real_value_le; try assumption. apply (add_mono_any p12 V exp_p12 MF a b (t12_neg mu) u w RA RB RN); [|assumption|assumption].
      apply (value_le_inv p12 BN Bes); [apply real_bounds; assumption|apply real_bounds; assumption|exact LAB]. }
    rewrite <- !(value_abs p12) by assumption. apply real_value_le; try (apply real_abs; assumption); [exact V|]. destruct L as [[L1 L2]|[L1 L2]].
    - pose proof (M x y d d' RX RY L2 E1 E1' RD RD') as K. apply (value_le_inv p12 BN Bes) in K; try (apply real_bounds; assumption). assert (0 <= d) by (destruct SD as (SD1 & SD2 & SD3); destruct (Z_lt_le_dec d 0) as [C|C]; [apply SD3 in C; lra|exact C]). lia.
    - pose proof (M y x d' d RY RX L1 E1' E1 RD' RD) as K. apply (value_le_inv p12 BN Bes) in K; try (apply real_bounds; assumption). assert (d <= 0) by (destruct SD as (SD1 & SD2 & SD3); destruct (Z_lt_le_dec 0 d) as [C|C]; [apply SD2 in C; lra|exact C]). lia. }
  pose proof (tail_mono p12 V _ _ _ _ _ _ LD LS (real_nz p12 tau V RT NT) T T') as LH. destruct (tail_real p12 V _ _ _ T) as [RH PH]. destruct (tail_real p12 V _ _ _ T') as [RH' PH'].
  assert (VH : (0 <= value p12 h)%Q) by (rewrite <- (value_0 p12 BN Bes); pose proof (real_bounds p12 BN Bes _ RH); apply (value_le p12 BN Bes); lia).
  refine (e12_mono (- value p12 h') (- value p12 h) t r _ _ R' R); [|lra]. apply Qopp_le_compat. apply real_value_le; assumption.
Qed.
Lemma g12_refuted : (exists x mu sigma, real p12 x /\ real p12 mu /\ real p12 sigma /\ sigma <> 0 /\ x <> mu /\ t12_gauss2 x mu sigma = UB ShiftCount) /\
  (exists x mu sigma r, real p12 x /\ real p12 mu /\ real p12 sigma /\ sigma <> 0 /\ t12_gauss2 x mu sigma = Ok r /\ ~ (0 < value p12 r)%Q) /\
  (exists x mu sigma r, real p12 x /\ real p12 mu /\ real p12 sigma /\ sigma <> 0 /\ x <> mu /\ t12_gauss2 x mu sigma = Ok r /\ (value p12 r == 1)%Q).
Proof.
  split; [|split].
  - exists 2047, 1, 1024. repeat split; vm_compute; congruence.
  - exists 1900, 0, 1024, 0. repeat split; vm_compute; congruence.
  - exists 2, 1, 1024, 1024. repeat split; vm_compute; congruence.
Qed.
(** posit12: x and mu can be swapped, and the signs of both or of sigma changed. *)
Lemma sub12_swap x mu : real p12 x -> real p12 mu -> t12_sub mu x = bind (t12_sub x mu) (fun d => Ok (- d)).
Proof.
  intros RX RM. pose proof valid_p12 as V. pose proof V as V'. vcb V'. unfold t12_sub, t12_add. change t12 with p12.
  rewrite (t12_neg_real x RX), (t12_neg_real mu RM). pose proof (real_opp p12 BN Bes _ RX) as RX'. pose proof (real_opp p12 BN Bes _ RM) as RM'.
  destruct (sign_symmetry p12 x (- mu) V exp_p12 ltac:(unfold add_fits; cbn; lia) RX RM') as (na & nb & E1 & E2 & _ & _ & _ & S).
  rewrite (p_neg_real p12 x V RX) in E1. rewrite (p_neg_real p12 (- mu) V RM') in E2. injection E1 as <-. injection E2 as <-. rewrite Z.opp_involutive in S.
  assert (NN : forall v, real p12 v -> pattern p12 v /\ ~ is_nan p12 v).
  { intros v R. unfold real in R. change (maxreal p12) with 2047 in R. split; [unfold pattern; cbn; lia|]. intros [_ K]. change (- 2 ^ (cN p12 - 1)) with (-2048) in K. lia. }
  rewrite (p_add_comm p12 mu (- x) V (proj1 (NN _ RM)) (proj1 (NN _ RX')) (proj2 (NN _ RM)) (proj2 (NN _ RX'))), S.
  destruct (p_add p12 x (- mu)) as [d|] eqn:E; cbn [bind]; [|reflexivity].
  destruct (p_add_faithful p12 x (- mu) d V exp_p12 ltac:(unfold add_fits; cbn; lia) RX RM' E) as [[RD _] _]. apply p_neg_real; assumption.
Qed.
Lemma e12_unique x r s : (x <= 0)%Q -> e12 x r -> e12 x s -> r = s.
Proof.
  intros L A B. pose proof valid_p12 as V. vcb V. destruct (e12_bounds x r L A) as (RR & _). destruct (e12_bounds x s L B) as (RS & _).
  apply Z.le_antisymm; apply (value_le_inv p12 BN Bes); try (apply real_bounds; assumption); apply (e12_mono x x); try assumption; apply Qle_refl.
Qed.
Lemma g12_tail d sigma d' sigma' x mu x' mu' : real p12 x -> real p12 mu -> real p12 sigma -> sigma <> 0 -> real p12 x' -> real p12 mu' -> real p12 sigma' -> sigma' <> 0 ->
  t12_sub x mu = Ok d -> t12_sub x' mu' = Ok d' -> real p12 d -> real p12 d' -> d' = d \/ d' = - d -> sigma' = sigma \/ sigma' = - sigma -> t12_gauss2 x mu sigma = t12_gauss2 x' mu' sigma'.
Proof.
  intros RX RM RS NS RX' RM' RS' NS' E E' RD RD' HD HS. pose proof valid_p12 as V. pose proof V as V'. vcb V'.
  assert (G : forall x mu sigma d, real p12 x -> real p12 mu -> real p12 sigma -> sigma <> 0 -> t12_sub x mu = Ok d -> real p12 d -> exists r, t12_gauss2 x mu sigma = Ok r).
  { clear. intros x mu sigma d RX RM RS NS E1 RD. pose proof valid_p12 as V. pose proof V as V'. vcb V'.
    destruct (t12_div_rounds d sigma RD RS NS) as (q & E2 & Q). destruct (t12_square_rounds q (rounds_tz_real p12 BN Bes _ _ Q)) as (s & E3 & S).
    destruct (t12_half_rounds s (rounds_tz_real p12 BN Bes _ _ S)) as (h & E4 & H4). assert (T : tail p12 d sigma h) by (exists q, s; auto). destruct (tail_real p12 V _ _ _ T) as [RH PH].
    destruct (e12_run h RH PH) as (r & E5 & _). exists r. unfold t12_gauss2. rewrite E1. cbn [bind]. rewrite E2. cbn [bind]. rewrite E3. cbn [bind]. rewrite E4. cbn [bind]. exact E5. }
  destruct (G x mu sigma d RX RM RS NS E RD) as (r & Er). destruct (G x' mu' sigma' d' RX' RM' RS' NS' E' RD') as (r' & Er').
  destruct (g12_run x mu sigma r RX RM RS NS Er) as (d1 & h & F & _ & _ & T & R). destruct (g12_run x' mu' sigma' r' RX' RM' RS' NS' Er') as (d1' & h' & F' & _ & _ & T' & R').
  rewrite E in F. injection F as <-. rewrite E' in F'. injection F' as <-.
  assert (AD : (Qabs (value p12 d) == Qabs (value p12 d'))%Q) by (destruct HD as [->| ->]; [reflexivity|rewrite (value_opp p12 BN Bes d), Qabs_opp; reflexivity]).
  assert (AS : (Qabs (value p12 sigma) == Qabs (value p12 sigma'))%Q) by (destruct HS as [->| ->]; [reflexivity|rewrite (value_opp p12 BN Bes sigma), Qabs_opp; reflexivity]).
  assert (EH : h = h').
  { apply Z.le_antisymm; [apply (tail_mono p12 V d sigma h d' sigma' h'); try assumption; try lra; apply real_nz; assumption|apply (tail_mono p12 V d' sigma' h' d sigma h); try assumption; try lra; apply real_nz; assumption]. }
  subst h'. destruct (tail_real p12 V _ _ _ T) as [RH PH].
  assert (VH : (0 <= value p12 h)%Q) by (rewrite <- (value_0 p12 BN Bes); pose proof (real_bounds p12 BN Bes _ RH); apply (value_le p12 BN Bes); lia).
  rewrite Er, Er'. f_equal. apply (e12_unique (- value p12 h)); try assumption. lra.
Qed.
Lemma sub12_real x mu d : real p12 x -> real p12 mu -> t12_sub x mu = Ok d -> real p12 d.
Proof.
  intros RX RM E. unfold t12_sub, t12_add in E. destruct (t12_neg_abs mu RM) as (RN & _). exact (proj1 (proj1 (p_add_faithful p12 x (t12_neg mu) d valid_p12 exp_p12 ltac:(unfold add_fits; cbn; lia) RX RN E))).
Qed.
Lemma g12_symmetric x mu sigma : real p12 x -> real p12 mu -> real p12 sigma -> sigma <> 0 ->
  t12_gauss2 mu x sigma = t12_gauss2 x mu sigma /\ t12_gauss2 (t12_neg x) (t12_neg mu) sigma = t12_gauss2 x mu sigma /\ t12_gauss2 x mu (t12_neg sigma) = t12_gauss2 x mu sigma.
Proof.
  intros RX RM RS NS. pose proof valid_p12 as V. pose proof V as V'. vcb V'. rewrite (t12_neg_real x RX), (t12_neg_real mu RM), (t12_neg_real sigma RS).
  pose proof (real_opp p12 BN Bes _ RX) as RX'. pose proof (real_opp p12 BN Bes _ RM) as RM'. pose proof (real_opp p12 BN Bes _ RS) as RS'.
  pose proof (sub12_swap x mu RX RM) as SW.
  assert (SN : t12_sub (- x) (- mu) = t12_sub mu x).
  { unfold t12_sub, t12_add. change t12 with p12. rewrite (t12_neg_real _ RM'), (t12_neg_real x RX), Z.opp_involutive.
    assert (NN : forall v, real p12 v -> pattern p12 v /\ ~ is_nan p12 v).
    { intros v R. unfold real in R. change (maxreal p12) with 2047 in R. split; [unfold pattern; cbn; lia|]. intros [_ K]. change (- 2 ^ (cN p12 - 1)) with (-2048) in K. lia. }
    apply p_add_comm; try apply NN; assumption. }
  destruct (t12_sub x mu) as [d|u] eqn:E; cbn [bind] in SW.
  - pose proof (sub12_real x mu d RX RM E) as RD. pose proof (real_opp p12 BN Bes _ RD) as RD'. rewrite SW in SN.
    split; [|split].
    + apply (g12_tail (- d) sigma d sigma); try assumption; [right; lia|left; reflexivity].
    + apply (g12_tail (- d) sigma d sigma); try assumption; [right; lia|left; reflexivity].
    + apply (g12_tail d (- sigma) d sigma); try assumption; [lia|left; reflexivity|right; lia].
  - rewrite SW in SN. unfold t12_gauss2. rewrite E, SW, SN. cbn [bind]. auto.
Qed.
