(** numeric_limits<Posit>. *)
From Coq Require Import ZArith QArith Bool List Lia.
From Verif Require Import Res CInt Cfg Spec Posit ListP Configs DecodeProof Final4 ListProof.
Open Scope Z_scope.

Lemma nl_inf_ok c : valid_cfg c -> csp c <> WithNan -> nl_has_infinity c = true /\ is_inf c (nl_infinity c).
Proof. intros V S. split; [reflexivity|]. apply nl_inf; assumption. Qed.
Lemma nl_inf_bad c : valid_cfg c -> csp c = WithNan ->
  nl_has_infinity c = true /\ is_nan c (nl_infinity c) /\ forall v, ~ is_inf c v.
Proof.
  intros V S. split; [reflexivity|]. split; [apply nl_inf; assumption|]. intros v.
  unfold is_inf, is_pinf, is_ninf, is_uinf. rewrite S. intuition congruence.
Qed.
Lemma nl_denorm c : valid_cfg c -> real c (nl_denorm_min c) /\ (0 < value c (nl_denorm_min c))%Q /\
  forall w, real c w -> (0 < value c w)%Q -> (value c (nl_denorm_min c) <= value c w)%Q.
Proof. intros V. unfold nl_denorm_min. pose proof (constants c V). tauto. Qed.
Lemma nl_bounded_bad c : valid_cfg c -> nl_is_bounded c = false /\
  exists lo hi, real c lo /\ real c hi /\ forall v, real c v -> (value c lo <= value c v <= value c hi)%Q.
Proof.
  intros V. split; [reflexivity|]. exists (p_lowest c), (p_max c). pose proof (constants c V). tauto.
Qed.
Lemma nl_digits_bad : nl_digits10 p16 = 3 /\ exists v, p_of_int p16 512 = Ok v /\ p_of_int p16 513 = Ok v.
Proof. split; [reflexivity|]. eexists. split; vm_compute; reflexivity. Qed.
