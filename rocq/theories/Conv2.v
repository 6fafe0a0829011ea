(** Construction of posits from floats and integers. *)
From Coq Require Import ZArith QArith Qabs Lia Lqa List Bool.
From Verif Require Import Res CInt Bits Traits Cfg Spec Unpacked Posit QPow Core SpecLemmas Arith DecodeProof EncodeProof UOps UAdd Ops
  OpsAdd Room Laws Configs Final1 Conv1.
Open Scope Z_scope.

Lemma et_ok c eb fb : valid_cfg c -> fmt_ok eb fb -> et_holds c eb -> eb < c_E c.
Proof.
  intros V FO H. destruct FO as [_ E _]. pose proof (c_E_width c V) as W. destruct V as [WH _ _ _ _ _ _]. unfold et_holds, c_E in *.
  rewrite Z.geb_leb in *. destruct (Z.leb_spec (cH c) (cN c + ces c)); destruct WH as [X|[X|[X|X]]]; lia.
Qed.

Lemma reg_outcome c n e f q : valid_cfg c -> exp_ok c -> 0 <= f < 2 ^ cF c -> (uvalue (cF c) n e f == q)%Q ->
  (room c q -> exists r, pack_posit c (U Regular n e f) = Ok r /\ rounds_tz c q r) /\
  (~ room c q -> pack_posit c (U Regular n e f) = UB ShiftCount).
Proof.
  intros V X Hf E. vcb V.
  assert (C : cell (cF c) e f 0 (uabs (cF c) e f)).
  { unfold cell. split; [assumption|]. split; [lia|]. split; [apply Z.mod_1_r|]. split; [apply Qle_refl|].
    unfold uabs. apply dy_lt. change (2 ^ 0) with 1. lia. }
  assert (Q : (q == sgq n (uabs (cF c) e f))%Q).
  { rewrite <- E, uvalue_uval by lia. unfold uval, sgq. destruct n; reflexivity. }
  destruct (cell_outcome c _ n e f 0 _ q V X ltac:(lia) ltac:(lia) eq_refl C Q) as [A B].
  split; [|exact B]. intros R. destruct (A R) as [r Er]. exists r. split; [assumption|].
  apply (rounds_tz_comp c BN Bes _ _ _ E). apply pack_value; assumption.
Qed.

Lemma of_float_wide c eb fb den b :
  valid_cfg c -> exp_ok c -> fmt_ok eb fb -> et_holds c eb -> fb <= cF c -> 0 <= b < 2 ^ (eb + fb + 1) ->
  match ieee_val eb fb b with
  | FinVal q =>
      ((q == 0)%Q \/ den = false /\ (Qabs q < pow2 (2 - 2 ^ (eb - 1)))%Q ->
        p_of_float c (any_floattrait eb fb den) b = Ok 0) /\
      (~ (q == 0)%Q -> den = true \/ (pow2 (2 - 2 ^ (eb - 1)) <= Qabs q)%Q ->
        (room c q -> exists r, p_of_float c (any_floattrait eb fb den) b = Ok r /\ rounds_tz c q r) /\
        (~ room c q -> p_of_float c (any_floattrait eb fb den) b = UB ShiftCount))
  | InfVal s => p_of_float c (any_floattrait eb fb den) b = Ok (inf_of c s)
  | NaNVal => p_of_float c (any_floattrait eb fb den) b = Ok (exceptional c)
  end.
Proof.
  intros V X FO ET L B. pose proof (et_ok c eb fb V FO ET) as EE. vcb V.
  pose proof (unpack_wide eb fb (cF c) (c_E c) den FO (vc_F c V) (c_E_width c V) EE b L B) as C.
  replace (1 - (2 ^ (eb - 1) - 1)) with (2 - 2 ^ (eb - 1)) in C by lia.
  unfold p_of_float. destruct (ieee_val eb fb b) as [q|s|].
  - destruct C as [[C1 (e & f & U0)]|(C1 & C2 & n & e & f & U0 & Hf & E)]; rewrite U0; cbn [bind].
    + split.
      * intros _. apply pack_specials. assumption.
      * intros NZ D. exfalso. destruct C1 as [C1|[C1 C2]]; [contradiction|].
        destruct D as [D|D]; [congruence|]. apply (Qlt_not_le _ _ C2 D).
    + split.
      * intros [Z|[D1 D2]]; exfalso; [contradiction|].
        destruct C2 as [C2|C2]; [congruence|]. apply (Qlt_not_le _ _ D2 C2).
      * intros _ _. apply reg_outcome; assumption.
  - destruct C as (e & f & U0). rewrite U0. cbn [bind]. apply pack_specials. assumption.
  - destruct C as (n & e & f & U0). rewrite U0. cbn [bind]. apply pack_specials. assumption.
Qed.

(** Any FT that holds the posit fraction: normal floats are truncated. *)
Lemma of_float_normal c eb fb den b q :
  valid_cfg c -> exp_ok c -> fmt_ok eb fb -> et_holds c eb -> frac_fits c -> 0 <= b < 2 ^ (eb + fb + 1) ->
  ieee_val eb fb b = FinVal q -> (pow2 (2 - 2 ^ (eb - 1)) <= Qabs q)%Q ->
  (room c q -> exists r, p_of_float c (any_floattrait eb fb den) b = Ok r /\ rounds_tz c q r) /\
  (~ room c q -> p_of_float c (any_floattrait eb fb den) b = UB ShiftCount).
Proof.
  intros V X FO ET FF B IV NR. pose proof (et_ok c eb fb V FO ET) as EE. vcb V.
  destruct (ieee_cases eb fb FO b B) as (Bf & Be & C). rewrite IV in C.
  destruct (unpack_float eb fb (cF c) (c_E c) den FO (vc_F c V) (c_E_width c V) EE b B) as [Bd R].
  destruct C as [C1 [[C2 C3]|[C2 C3]]].
  - exfalso. destruct FO as [W [E1 E2] Hf].
    assert (A : (Qabs q == dy (ffrac_of fb b) (2 - 2 ^ (eb - 1) - fb))%Q).
    { rewrite C3. replace (1 - (2 ^ (eb - 1) - 1)) with (2 - 2 ^ (eb - 1)) by lia.
      assert (P : (0 <= dy (ffrac_of fb b) (2 - 2 ^ (eb - 1) - fb))%Q) by (rewrite <- (dy_0 (2 - 2 ^ (eb - 1) - fb)); apply dy_le; lia).
      unfold sgn1. destruct (fsign_of eb fb b); [rewrite Qabs_neg by lra|rewrite Qabs_pos by lra]; ring. }
    rewrite A in NR. apply (Qle_not_lt _ _ NR).
    apply Qlt_le_trans with (dy (2 ^ fb) (2 - 2 ^ (eb - 1) - fb)); [apply dy_lt; lia|].
    rewrite <- (Z.mul_1_l (2 ^ fb)), dy_pow by lia. replace (2 - 2 ^ (eb - 1) - fb + fb) with (2 - 2 ^ (eb - 1)) by lia.
    unfold dy. change (inject_Z 1) with 1%Q. rewrite Qmult_1_l. apply Qle_refl.
  - destruct (Z.eqb_spec (fexp_of eb fb b) (2 ^ eb - 1)); [contradiction|].
    destruct (Z.eqb_spec (fexp_of eb fb b) 0); [contradiction|].
    pose proof (normal_cell eb fb (cF c) FO (vc_F c V) b B) as CL.
    unfold p_of_float. rewrite R. cbn [bind].
    set (e := fexp_of eb fb b - (2 ^ (eb - 1) - 1)) in *. set (x := dy (2 ^ fb + ffrac_of fb b) (e - fb)) in *.
    assert (Q : (q == sgq (fsign_of eb fb b) x)%Q).
    { rewrite C3. unfold sgn1, sgq, x, e. destruct (fsign_of eb fb b); ring. }
    destruct (cell_outcome c _ (fsign_of eb fb b) e _ 0 x q V X ltac:(lia) ltac:(lia) eq_refl CL Q) as [A Bb].
    split; [|exact Bb]. intros Rm. destruct (A Rm) as [r Er]. exists r. split; [assumption|].
    symmetry in Q; apply (rounds_tz_comp c BN Bes _ _ _ Q). eapply cell_rounds; try eassumption.
    unfold frac_fits, gran in *. lia.
Qed.
