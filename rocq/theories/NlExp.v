(** min_exponent and max_exponent of numeric_limits<Posit> against the meaning the C++ standard gives them. *)
From Coq Require Import ZArith QArith Lia Lqa.
From Verif Require Import Res CInt Cfg Spec Posit Traits ListP QPow Final4 Misc4.
Open Scope Z_scope.

Lemma pow2_le_inv a b : (pow2 a <= pow2 b)%Q -> a <= b.
Proof.
  intros H. destruct (Z_le_gt_dec a b) as [|G]; [assumption|exfalso].
  pose proof (pow2_lt b a ltac:(lia)) as L. lra.
Qed.

Lemma nl_exponents c : valid_cfg c -> exp_ok c ->
  exists lo hi, nl_min_exponent c = Ok lo /\ nl_max_exponent c = Ok hi /\
    (exists v, real c v /\ (value c v == pow2 ((lo + 1) - 1))%Q) /\
    (exists v, real c v /\ (value c v == pow2 ((hi + 1) - 1))%Q) /\
    (forall n v, real c v -> (value c v == pow2 (n - 1))%Q -> lo + 1 <= n <= hi + 1).
Proof.
  intros V E. destruct (limits c V E) as (lo & hi & L & H & VL & VH).
  destruct (constants c V) as (_ & _ & _ & _ & _ & _ & _ & _ & RM & Rm & _ & B & _ & P & _).
  exists lo, hi. split; [exact L|]. split; [exact H|]. split; [|split].
  - exists (p_min c). split; [exact Rm|]. replace (lo + 1 - 1) with lo by lia. exact VL.
  - exists (p_max c). split; [exact RM|]. replace (hi + 1 - 1) with hi by lia. exact VH.
  - intros n v R Ev. pose proof (pow2_pos (n - 1)) as Q.
    assert (lo <= n - 1).
    { apply pow2_le_inv. rewrite <- VL, <- Ev. apply P; [exact R|]. rewrite Ev. exact Q. }
    assert (n - 1 <= hi).
    { apply pow2_le_inv. rewrite <- VH, <- Ev. apply (B v R). }
    lia.
Qed.
