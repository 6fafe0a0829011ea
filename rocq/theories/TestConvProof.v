(** Proofs about the test case "Conversions". *)
From Coq Require Import ZArith QArith Qabs Bool Lia Lqa.
From Verif Require Import Res CInt Bits Traits Cfg Spec Unpacked Posit QPow Core SpecLemmas Arith DecodeProof EncodeProof UOps UAdd Ops
  OpsAdd Room Laws Configs Final1 Misc2 Conv1 Conv2 Conv3 Conv4 Conv5 AnyProof3 Soft TestConv.
Open Scope Z_scope.

Lemma cell_exact_inj F e f e' f' x : 0 <= F -> 0 <= f' < 2 ^ F -> cell F e f 0 x -> (x == uabs F e' f')%Q -> e = e' /\ f = f'.
Proof.
  intros HF B' (B & _ & _ & L & U) X. unfold uabs in *. rewrite X in L, U. clear X.
  assert (P : 0 < 2 ^ F) by (apply Z.pow_pos_nonneg; lia).
  change (2 ^ 0) with 1 in U.
  rewrite <- !lval_ef in L by assumption.
  assert (U' : (lval F (e' * 2 ^ F + f') < lval F (e * 2 ^ F + (f + 1)))%Q).
  { rewrite lval_ef by assumption. rewrite lval_ef' by lia. rewrite Z.add_assoc. exact U. }
  apply lval_le_inv in L; [|exact HF]. apply lval_lt_inv in U'; [|exact HF].
  assert (Y : e * 2 ^ F + f = e' * 2 ^ F + f') by lia.
  assert (e = e') by nia. subst. split; [reflexivity|lia].
Qed.

Lemma unpack_posit_float c eb fb den b q v :
  valid_cfg c -> fmt_ok eb fb -> et_holds c eb -> frac_fits c -> 0 <= b < 2 ^ (eb + fb + 1) ->
  ieee_val eb fb b = FinVal q -> (pow2 (2 - 2 ^ (eb - 1)) <= Qabs q)%Q -> real c v -> (q == value c v)%Q ->
  v <> 0 /\ u_unpack_xfloati (cF c) (c_E c) (any_floattrait eb fb den) b = unpack c v.
Proof.
  intros V FO ET FF B IV NR R Q. pose proof (et_ok c eb fb V FO ET) as EE.
  pose proof (is_width_pos _ (vc_F c V)) as WF.
  assert (NZ : v <> 0).
  { intros ->. rewrite Q in NR. change (value c 0) with 0%Q in NR. pose proof (pow2_pos (2 - 2 ^ (eb - 1))). change (Qabs 0) with 0%Q in NR. lra. }
  split; [exact NZ|].
  destruct (decode_value c v V FF R NZ) as (n & e' & f' & U0 & Bf' & VV).
  destruct (ieee_cases eb fb FO b B) as (Bf & Be & C). rewrite IV in C.
  destruct (unpack_float eb fb (cF c) (c_E c) den FO (vc_F c V) (c_E_width c V) EE b B) as [Bd Rr].
  destruct C as [C1 [[C2 C3]|[C2 C3]]].
  - exfalso. destruct FO as [W [E1 E2] Hf].
    assert (A : (Qabs q == dy (ffrac_of fb b) (2 - 2 ^ (eb - 1) - fb))%Q).
    { rewrite C3. replace (1 - (2 ^ (eb - 1) - 1)) with (2 - 2 ^ (eb - 1)) by lia.
      assert (P : (0 <= dy (ffrac_of fb b) (2 - 2 ^ (eb - 1) - fb))%Q) by (rewrite <- (dy_0 (2 - 2 ^ (eb - 1) - fb)); apply dy_le; lia).
      unfold sgn1. destruct (fsign_of eb fb b); [rewrite Qabs_neg by lra|rewrite Qabs_pos by lra]; ring. }
    rewrite A in NR. apply (Qle_not_lt _ _ NR).
    apply Qlt_le_trans with (dy (2 ^ fb) (2 - 2 ^ (eb - 1) - fb)); [apply dy_lt; lia|].
    rewrite <- (Z.mul_1_l (2 ^ fb)), dy_pow by lia. replace (2 - 2 ^ (eb - 1) - fb + fb) with (2 - 2 ^ (eb - 1)) by lia.
    unfold dy. change (inject_Z 1) with 1%Q. rewrite Qmult_1_l. apply Qle_refl.
  - destruct (Z.eqb_spec (fexp_of eb fb b) (2 ^ eb - 1)); [contradiction|].
    destruct (Z.eqb_spec (fexp_of eb fb b) 0); [contradiction|].
    pose proof (normal_cell eb fb (cF c) FO (vc_F c V) b B) as CL.
    set (e := fexp_of eb fb b - (2 ^ (eb - 1) - 1)) in *. set (x := dy (2 ^ fb + ffrac_of fb b) (e - fb)) in *.
    assert (Xp : (0 < x)%Q).
    { unfold x. rewrite <- (dy_0 (e - fb)). apply dy_lt. pose proof FO as [W [E1 E2] Hf]. pow_pos 2 fb. lia. }
    assert (UV : (sgn1 (fsign_of eb fb b) * x == uval (cF c) n e' f')%Q).
    { rewrite <- uvalue_uval by lia. rewrite <- VV, <- Q, C3. unfold x, e. reflexivity. }
    pose proof (uabs_pos (cF c) e' f' ltac:(lia) ltac:(lia)) as Up.
    assert (SX : fsign_of eb fb b = n /\ (x == uabs (cF c) e' f')%Q).
    { unfold uval, sgn1 in UV. destruct (fsign_of eb fb b), n; split; try reflexivity; try (exfalso; lra); lra. }
    destruct SX as [Sn Xe]. assert (F0 : 0 <= cF c) by lia. destruct (cell_exact_inj _ _ _ _ _ _ F0 Bf' CL Xe) as [Ee Ef].
    rewrite Rr, U0, Sn, Ee, Ef. reflexivity.
Qed.

Lemma f_eq_same eb fb a b p q : ieee_val eb fb a = FinVal p -> ieee_val eb fb b = FinVal q -> (p == q)%Q -> f_eq eb fb a b = true.
Proof. intros A B Q. unfold f_eq. rewrite A, B. apply Qeq_bool_iff. exact Q. Qed.

Lemma u_eq_refl u : utyp u <> NaN -> u_eq u u = true.
Proof.
  intros N. unfold u_eq, u_isNaN, u_isRegular. destruct u as [t n e f]. cbn in *. destruct t; try contradiction; cbn.
  all: rewrite ?Z.eqb_refl, Bool.eqb_reflx; reflexivity.
Qed.

Lemma p_eq_real c v : valid_cfg c -> ~ is_nan c v -> p_eq c v v = true.
Proof. intros V N. unfold p_eq. rewrite nan_any_false by assumption. apply Z.eqb_refl. Qed.

Lemma conv_holds c eb fb den f q v :
  valid_cfg c -> exp_ok c -> fmt_ok eb fb -> et_holds c eb -> frac_fits c -> 0 <= f < 2 ^ (eb + fb + 1) ->
  ieee_val eb fb f = FinVal q -> (pow2 (2 - 2 ^ (eb - 1)) <= Qabs q)%Q -> real c v -> (q == value c v)%Q -> room c q ->
  p_of_float c (any_floattrait eb fb den) f = Ok v /\ conv_test c eb fb den f = Ok (true, true, true, true).
Proof.
  intros V X FO ET FF B IV NR R Q RM. vcb V.
  destruct (unpack_posit_float c eb fb den f q v V FO ET FF B IV NR R Q) as [NZ UE].
  destruct (decode_value c v V FF R NZ) as (n & e & m & U0 & _ & _).
  assert (P : p_of_float c (any_floattrait eb fb den) f = Ok v).
  { destruct (of_float_normal c eb fb den f q V X FO ET FF B IV NR) as [A _]. destruct (A RM) as (r & O & RT). rewrite O. f_equal.
    apply (rounds_tz_unique c BN Bes (value c v)); [|apply rounds_tz_exact; assumption].
    apply (rounds_tz_comp c BN Bes _ _ _ Q RT). }
  split; [exact P|].
  assert (PT : pt_holds c eb) by (unfold pt_holds, et_holds in *; lia).
  destruct (to_float_exact c eb fb den v q V FO PT FF R (ex_intro _ f (conj B IV)) Q ltac:(rewrite <- Q; exact NR)) as (b & r & O & Bb & I & Qr).
  unfold conv_test. cbv zeta. rewrite P. rewrite UE. rewrite U0. cbn [bind].
  unfold p_of_float in P. rewrite UE, U0 in P. cbn [bind] in P. rewrite P. cbn [bind].
  unfold p_to_float in O. rewrite U0 in O. cbn [bind] in O. rewrite O. cbn [bind]. rewrite U0. cbn [bind]. rewrite O. cbn [bind].
  destruct (kinds_disjoint c v V) as (_ & K & _).
  rewrite (f_eq_same eb fb f b q r IV I) by (rewrite Qr; exact Q).
  rewrite (f_eq_same eb fb b f r q I IV) by (rewrite Qr; symmetry; exact Q).
  rewrite p_eq_real by tauto. rewrite u_eq_refl by discriminate. reflexivity.
Qed.

Lemma conv_zero c eb fb den f q :
  valid_cfg c -> fmt_ok eb fb -> et_holds c eb -> 0 <= f < 2 ^ (eb + fb + 1) -> ieee_val eb fb f = FinVal q -> (q == 0)%Q ->
  p_of_float c (any_floattrait eb fb den) f = Ok 0 /\ conv_test c eb fb den f = Ok (true, true, true, true).
Proof.
  intros V FO ET B IV Q. pose proof (et_ok c eb fb V FO ET) as EE. vcb V.
  destruct (ieee_cases eb fb FO f B) as (Bf & Be & C). rewrite IV in C.
  destruct (unpack_float eb fb (cF c) (c_E c) den FO (vc_F c V) (c_E_width c V) EE f B) as [Bd Rr].
  assert (S : fexp_of eb fb f = 0 /\ ffrac_of fb f = 0 /\ fexp_of eb fb f <> 2 ^ eb - 1).
  { destruct C as [C1 [[C2 C3]|[C2 C3]]].
    - split; [exact C2|]. split; [|exact C1]. destruct (Z.eq_dec (ffrac_of fb f) 0) as [|N]; [assumption|exfalso].
      assert (G : (0 < dy (ffrac_of fb f) (1 - (2 ^ (eb - 1) - 1) - fb))%Q).
      { rewrite <- (dy_0 (1 - (2 ^ (eb - 1) - 1) - fb)). apply dy_lt. lia. }
      rewrite C3 in Q. unfold sgn1 in Q. destruct (fsign_of eb fb f); lra.
    - exfalso. assert (G : (0 < dy (2 ^ fb + ffrac_of fb f) (fexp_of eb fb f - (2 ^ (eb - 1) - 1) - fb))%Q).
      { rewrite <- (dy_0 (fexp_of eb fb f - (2 ^ (eb - 1) - 1) - fb)). apply dy_lt.
        destruct FO as [W [E1 E2] Hf]. pow_pos 2 fb. lia. }
      rewrite C3 in Q. unfold sgn1 in Q. destruct (fsign_of eb fb f); lra. }
  destruct S as (S1 & S2 & S3).
  assert (D0 : dec_frac fb (cF c) f = 0) by (unfold dec_frac; rewrite S2; reflexivity).
  destruct (Z.eqb_spec (fexp_of eb fb f) (2 ^ eb - 1)); [contradiction|].
  destruct (Z.eqb_spec (fexp_of eb fb f) 0); [|contradiction].
  rewrite D0 in Rr. cbn [Z.eqb] in Rr. rewrite orb_true_r in Rr.
  destruct (pack_specials c false (- (2 ^ (eb - 1) - 1)) 0 V) as (Pz & _).
  assert (P : p_of_float c (any_floattrait eb fb den) f = Ok 0) by (unfold p_of_float; rewrite Rr; cbn [bind]; exact Pz).
  split; [exact P|].
  assert (U0 : unpack c 0 = Ok (U Zero false 0 0)).
  { destruct (classify c 0 V) as [[_ U0]|[[[_ N] _]|[[N _]|[_ [N _]]]]]; [unfold pattern; pow_pos 2 (cN c - 1); lia|exact U0| | |lia].
    - pow_pos 2 (cN c - 1). lia.
    - exfalso. pow_pos 2 (cN c - 1). assert (2 ^ 1 <= 2 ^ (cN c - 1)) by (apply pow2_mono; lia).
      destruct N as [[_ N]|[[_ N]|[_ N]]]; lia. }
  unfold conv_test. cbv zeta. rewrite P, Rr. cbn [bind u_pack_xfloati utyp]. rewrite Pz. cbn [bind]. rewrite U0. cbn [bind u_pack_xfloati utyp].
  assert (I0 : exists z, ieee_val eb fb 0 = FinVal z /\ (z == 0)%Q).
  { destruct FO as [W [E1 E2] Hf]. pow_pos 2 fb. pow_pos 2 eb.
    unfold ieee_val. cbn zeta. rewrite !Z.div_0_l, !Z.mod_0_l by lia.
    assert (0 =? 2 ^ eb - 1 = false).
    { apply Z.eqb_neq. assert (2 ^ 1 <= 2 ^ eb) by (apply pow2_mono; lia). lia. }
    rewrite H1. cbn [Z.eqb]. eexists. split; [reflexivity|]. unfold inject_Z. ring. }
  destruct I0 as (z & I0 & Z0).
  rewrite (f_eq_same eb fb f 0 q z IV I0) by (rewrite Z0; exact Q).
  rewrite (f_eq_same eb fb 0 f z q I0 IV) by (rewrite Z0; symmetry; exact Q).
  rewrite p_eq_real; [reflexivity|exact V|]. intros [_ N]. pow_pos 2 (cN c - 1). lia.
Qed.

Lemma conv_inf c eb fb den f s :
  valid_cfg c -> fmt_ok eb fb -> et_holds c eb -> 0 <= f < 2 ^ (eb + fb + 1) -> ieee_val eb fb f = InfVal s ->
  conv_test c eb fb den f = Ok (match csp c with WithNanInf => (true, true, true, true) | WithInf => (true, true, s, s) | WithNan => (true, false, false, false) end).
Proof.
  intros V FO ET B IV. pose proof (et_ok c eb fb V FO ET) as EE. vcb V.
  destruct (ieee_cases eb fb FO f B) as (Bf & Be & C). rewrite IV in C. destruct C as (C1 & C2 & C3).
  destruct (unpack_float eb fb (cF c) (c_E c) den FO (vc_F c V) (c_E_width c V) EE f B) as [Bd Rr].
  assert (D0 : dec_frac fb (cF c) f = 0) by (unfold dec_frac; rewrite C2; reflexivity).
  rewrite C1, Z.eqb_refl, D0, <- C3 in Rr. cbn [Z.eqb] in Rr.
  set (x := 2 ^ eb - 1 - (2 ^ (eb - 1) - 1)) in Rr.
  destruct (pack_specials c s x 0 V) as (_ & _ & Pi).
  assert (P : p_of_float c (any_floattrait eb fb den) f = Ok (inf_of c s)) by (unfold p_of_float; rewrite Rr; cbn [bind]; exact Pi).
  destruct (trait_inf eb fb den FO) as (T1 & T2 & T3).
  assert (TI : forall b : bool, ieee_val eb fb (if b then t_ninf (any_floattrait eb fb den) else t_pinf (any_floattrait eb fb den)) = InfVal b).
  { intros b. pose proof FO as [W [E1 E2] Hf]. pow_pos 2 fb. destruct b; [rewrite T2|rewrite T1]; rewrite ieee_top by (assumption || lia); reflexivity. }
  assert (TN : ieee_val eb fb (t_nan (any_floattrait eb fb den)) = NaNVal).
  { pose proof FO as [W [E1 E2] Hf]. pow_pos 2 (fb - 1).
    assert (EF : 2 ^ fb = 2 * 2 ^ (fb - 1)) by (rewrite <- Z.pow_succ_r by lia; f_equal; lia).
    rewrite T3, ieee_top by (assumption || lia). destruct (Z.eqb_spec (2 ^ (fb - 1)) 0); [lia|reflexivity]. }
  assert (M2 : 4 <= 2 ^ (cN c - 1)) by (change 4 with (2 ^ 2); apply pow2_mono; lia).
  unfold conv_test. cbv zeta. rewrite P, Rr. cbn [bind u_pack_xfloati utyp uneg]. rewrite Pi. cbn [bind].
  assert (A1 : f_eq eb fb f (if s then t_ninf (any_floattrait eb fb den) else t_pinf (any_floattrait eb fb den)) = true).
  { unfold f_eq. rewrite IV, TI. apply Bool.eqb_reflx. }
  destruct (csp c) eqn:SP.
  - assert (N : is_nan c (inf_of c s)) by (unfold is_nan, inf_of; rewrite SP; split; [discriminate|reflexivity]).
    destruct (kinds_disjoint c (inf_of c s) V) as (K1 & K2 & _).
    destruct (classify c (inf_of c s) V (special_pattern c _ V (or_introl N))) as [[Z0 _]|[[_ U0]|[[I0 _]|[R0 _]]]]; [|clear K1 K2|tauto|tauto].
    { exfalso. destruct N as [_ N]. lia. }
    rewrite U0. cbn [bind u_pack_xfloati utyp uneg]. rewrite A1.
    unfold p_eq. rewrite nan_any_true by tauto. unfold f_eq. rewrite TN. reflexivity.
  - assert (I : is_inf c (inf_of c s)) by (unfold is_inf, is_uinf, inf_of; rewrite SP; right; right; split; reflexivity).
    assert (L : (inf_of c s <? 0) = true) by (apply Z.ltb_lt; unfold inf_of; rewrite SP; lia).
    destruct (kinds_disjoint c (inf_of c s) V) as (K1 & K2 & K3 & _).
    destruct (classify c (inf_of c s) V (special_pattern c _ V (or_intror I))) as [[Z0 _]|[[N0 _]|[[_ U0]|[R0 _]]]]; [|tauto| |tauto].
    { exfalso. apply Z.ltb_lt in L. lia. }
    rewrite L in U0. rewrite U0. cbn [bind u_pack_xfloati utyp uneg]. rewrite A1.
    rewrite p_eq_real by tauto. unfold f_eq. pose proof (TI true) as TT. cbn iota in TT. rewrite TT, IV. destruct s; reflexivity.
  - assert (I : is_inf c (inf_of c s)).
    { unfold is_inf, is_pinf, is_ninf, inf_of. rewrite SP. destruct s; [right; left|left]; split; reflexivity. }
    assert (L : (inf_of c s <? 0) = s) by (unfold inf_of; rewrite SP; destruct s; [apply Z.ltb_lt|apply Z.ltb_ge]; lia).
    destruct (kinds_disjoint c (inf_of c s) V) as (K1 & K2 & K3 & _).
    destruct (classify c (inf_of c s) V (special_pattern c _ V (or_intror I))) as [[Z0 _]|[[N0 _]|[[_ U0]|[R0 _]]]]; [|tauto| |tauto].
    { exfalso. unfold inf_of in Z0. rewrite SP in Z0. destruct s; lia. }
    rewrite L in U0. rewrite U0. cbn [bind u_pack_xfloati utyp uneg]. rewrite A1.
    rewrite p_eq_real by tauto. unfold f_eq. rewrite TI, IV. destruct s; reflexivity.
Qed.

Lemma valid_p28_5 : valid_cfg p28_5. Proof. cfg_tac. Qed.
Lemma room_p28_5 : room p28_5 (-10).
Proof. right. exists 3. vm_compute. intuition congruence. Qed.
