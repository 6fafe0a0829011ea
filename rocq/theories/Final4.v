(** Packaged statements about the unary operations and the constants. *)
From Coq Require Import ZArith QArith Qabs Lia Lqa List Bool.
From Verif Require Import Res CInt Bits Cfg Spec Unpacked Posit QPow Core SpecLemmas Arith DecodeProof EncodeProof UOps Ops
  OpsAdd OpsUnary OpsUnary2 Specials Room Laws Configs Final1 Final2 Final3.
Open Scope Z_scope.

Lemma inv_partial c x :
  valid_cfg c -> exp_ok c -> mul_fits c -> real c x -> x <> 0 ->
  ~ (csp c = WithNanInf /\ (x = 1 \/ x = -1)) ->
  (forall r, p_inv c x = Ok r -> rounds_tz c (/ value c x) r) /\
  (forall r s, p_inv c x = Ok r -> p_div c (p_one c) x = Ok s -> r = s) /\
  (roomy c -> exists r, p_inv c x = Ok r /\ p_div c (p_one c) x = Ok r).
Proof.
  intros V X MF R NZ NE. split; [intros; eapply p_inv_rounds; eassumption|].
  split; [intros r s; apply inv_div; assumption|].
  intros Rm. destruct (inv_total c x V X MF Rm R NZ NE) as (r & A & _ & B). eauto.
Qed.
Lemma inv_minpos_refuted : exists c x r, valid_cfg c /\ exp_ok c /\ mul_fits c /\ real c x /\ x <> 0 /\
  p_inv c x = Ok r /\ is_pinf c r /\ p_div c (p_one c) x <> Ok r.
Proof. exists p16ni, 1, 32767. repeat split; try (apply valid_p16ni); vm_compute; congruence. Qed.
Lemma inv_refuted : exists c i, valid_cfg c /\ p_inv c 0 = Ok 0 /\ p_inv c 0 <> p_div c (p_one c) 0 /\
  is_inf c i /\ p_inv c i = Ok i.
Proof.
  exists p16i, (-32768). split; [apply valid_p16i|]. repeat split; try (vm_compute; congruence).
  right; right. vm_compute. auto.
Qed.
Lemma twice_partial c v :
  valid_cfg c -> real c v -> ~ (csp c = WithNanInf /\ ces c = 0 /\ Z.abs v = maxreal c) ->
  (forall r, p_twice c v = Ok r -> rounds_tz c (value c v * (2 # 1)) r) /\
  (cN c + 2 < Z.max 32 (cH c) -> exists r, p_twice c v = Ok r).
Proof. intros V R N. split; [intros; eapply twice_rounds; eassumption|intros; apply twice_defined; assumption]. Qed.
Lemma twice_refuted : exists c v r, valid_cfg c /\ real c v /\ p_twice c v = Ok r /\ is_pinf c r.
Proof. exists p8ni, 126, 127. split; [apply valid_p8ni|]. repeat split; vm_compute; congruence. Qed.
Lemma half_partial c v :
  valid_cfg c -> real c v -> v <> 1 -> v <> -1 ->
  (forall r, p_half c v = Ok r -> rounds_tz c (value c v * (1 # 2)) r) /\
  (roomy c -> exists r, p_half c v = Ok r).
Proof. intros V R N M. split; [intros; eapply p_half_rounds; eassumption|intros; apply p_half_defined; assumption]. Qed.
Lemma half_minpos_zero c v r : valid_cfg c -> v = 1 \/ v = -1 -> p_half c v = Ok r -> r = 0.
Proof. exact (p_half_minpos c v r). Qed.
Lemma next_prev c v :
  valid_cfg c -> real c v ->
  (v <> maxreal c -> v <> - maxreal c ->
    exists r, p_next c v = Ok r /\ real c r /\ (value c v < value c r)%Q /\
      (forall w, real c w -> (value c v < value c w)%Q -> (value c r <= value c w)%Q)) /\
  (v <> - maxreal c ->
    exists r, p_prev c v = Ok r /\ real c r /\ (value c r < value c v)%Q /\
      (forall w, real c w -> (value c w < value c v)%Q -> (value c w <= value c r)%Q)) /\
  p_prev c (- maxreal c) = Ok (- maxreal c) /\
  p_next c (- maxreal c) = Ok (- maxreal c).
Proof.
  intros V R. split; [intros; apply next_in; assumption|]. split; [intros; apply prev_in; assumption|].
  split; [apply p_prev_lowest; assumption|apply p_next_lowest; assumption].
Qed.
Lemma next_refuted : exists c, valid_cfg c /\
  p_next c (- maxreal c) = Ok (- maxreal c) /\ (exists r, p_next c (maxreal c) = Ok r /\ ~ real c r).
Proof.
  exists p16. split; [apply valid_p16|]. split; [reflexivity|]. exists (-32768). split; [reflexivity|].
  vm_compute. intros [A _]. apply A. reflexivity.
Qed.
Lemma constants c : valid_cfg c ->
  (value c (p_zero c) == 0)%Q /\ (value c (p_one c) == 1)%Q /\ (value c (p_mone c) == -1)%Q /\
  (value c (p_two c) == 2)%Q /\
  real c (p_zero c) /\ real c (p_one c) /\ real c (p_mone c) /\
  ((csp c = WithNanInf -> cN c <> 3) -> real c (p_two c)) /\
  real c (p_max c) /\ real c (p_min c) /\ real c (p_lowest c) /\
  (forall w, real c w -> (value c (p_lowest c) <= value c w <= value c (p_max c))%Q) /\
  (0 < value c (p_min c))%Q /\
  (forall w, real c w -> (0 < value c w)%Q -> (value c (p_min c) <= value c w)%Q) /\
  p_nan c = exceptional c /\ p_pinf c = inf_of c false /\ p_inf c = inf_of c false /\ p_ninf c = inf_of c true.
Proof.
  intros V. destruct (const_vals c V) as (A & B & C & D & E & F & G).
  pose proof (two_value c V). pose proof (two_real c V). rewrite A, B, C, D, E, F.
  vcb V.
  assert (O : real c (2 ^ (cN c - 2))) by (apply one_real; assumption).
  assert (P1 : (value c (2 ^ (cN c - 2)) == 1)%Q) by (apply one_value; assumption).
  assert (VO : (value c (- 2 ^ (cN c - 2)) == -1)%Q) by (rewrite (value_opp c BN Bes (2 ^ (cN c - 2))), P1; reflexivity).
  assert (MR : 1 <= maxreal c) by (unfold real in O; pow_pos 2 (cN c - 2); lia).
  assert (LE : forall a b, real c a -> real c b -> a <= b -> (value c a <= value c b)%Q).
  { intros a b Ra Rb L. pose proof (real_bounds c BN Bes a Ra). pose proof (real_bounds c BN Bes b Rb).
    apply (value_le c BN Bes a b); lia. }
  assert (POS : forall w, real c w -> (0 < value c w)%Q -> 1 <= w).
  { intros w Rw Pw. apply (value_sign c w V Rw) in Pw. lia. }
  repeat match goal with |- _ /\ _ => split end; try assumption; try (unfold real in *; lia).
  - intros w Rw. split; apply LE; try assumption; unfold real in *; lia.
  - apply (value_sign c 1 V); unfold real in *; lia.
  - intros w Rw Pw. apply LE; try assumption; [unfold real in *; lia|apply POS; assumption].
Qed.
Lemma onehalf_exact c : valid_cfg c -> cH c = cN c ->
  real c (p_onehalf c) /\ (value c (p_onehalf c) == 1 # 2)%Q.
Proof.
  intros V H. rewrite (onehalf_ok c V H). split; [apply half_real; assumption|apply half_value; assumption].
Qed.
