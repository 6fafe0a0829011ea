(** PositF over float and double. *)
From Coq Require Import ZArith QArith Qabs Lia Lqa List Bool Setoid.
From Verif Require Import Res CInt Bits Traits Unpacked Cfg Posit Spec SpecFloat FloatOps PositF QPow Core SpecLemmas Arith DecodeProof EncodeProof
  UOps UAdd Ops OpsAdd OpsUnary OpsUnary2 Specials Room Laws Configs Final1 Final2 Final3 Conv1 Conv2 Conv3 Conv4 Conv5 TabProof5 FloatProof PositFProof PositFProof2.
Open Scope Z_scope.

Lemma k_fmt k : fmt_ok (f_eb k) (f_fb k).
Proof. destruct k; constructor; cbn [f_eb f_fb]; unfold is_width; lia. Qed.
Lemma k_tr k : f_tr k = any_floattrait (f_eb k) (f_fb k) true.
Proof. destruct k; reflexivity. Qed.

(** The bound is never met with equality. *)
Lemma emax_even c : valid_cfg c -> 0 < ces c -> exists j, emax c = 2 * j.
Proof.
  intros V H. exists ((cN c - 2) * 2 ^ (ces c - 1)). unfold emax.
  replace (ces c) with (Z.succ (ces c - 1)) at 1 by lia. rewrite Z.pow_succ_r by lia. ring.
Qed.
Lemma emax_4 c : valid_cfg c -> 1 < ces c -> exists j, emax c = 4 * j.
Proof.
  intros V H. exists ((cN c - 2) * 2 ^ (ces c - 2)). unfold emax.
  replace (ces c) with (Z.succ (Z.succ (ces c - 2))) at 1 by lia. rewrite !Z.pow_succ_r by lia. ring.
Qed.
Lemma N_64 c : valid_cfg c -> cN c <= 64.
Proof. intros V. pose proof (vc_N c V). destruct (vc_H c V) as [E|[E|[E|E]]]; lia. Qed.
Lemma strict1 c k : valid_cfg c -> emax c <= 2 ^ (f_eb k - 1) - 2 -> emax c < 2 ^ (f_eb k - 1) - 2.
Proof.
  intros V H. pose proof (vc_es0 c V). pose proof (N_64 c V).
  destruct (Z_le_gt_dec (ces c) 1) as [L|L].
  - assert (ces c = 0 \/ ces c = 1) as [E|E] by lia; unfold emax in *; rewrite E in *; destruct k; cbn [f_eb] in *;
      change (2 ^ 0) with 1 in *; change (2 ^ 1) with 2 in *; change (2 ^ (8 - 1)) with 128 in *; change (2 ^ (11 - 1)) with 1024 in *; lia.
  - destruct (emax_4 c V ltac:(lia)) as [j J]. rewrite J in *. destruct k; cbn [f_eb] in *; change (2 ^ (8 - 1)) with 128 in *; change (2 ^ (11 - 1)) with 1024 in *; lia.
Qed.
Lemma strict2 c k : valid_cfg c -> products_fit c (f_eb k) -> 2 * emax c < 2 ^ (f_eb k - 1) - 2.
Proof.
  intros V H. unfold products_fit in H. fold (emax c) in H. pose proof (vc_es0 c V). pose proof (N_64 c V).
  destruct (Z_le_gt_dec (ces c) 0) as [L|L].
  - assert (E : ces c = 0) by lia. unfold emax in *. rewrite E in *. change (2 ^ 0) with 1 in *. destruct k; cbn [f_eb] in *;
      change (2 ^ (8 - 1)) with 128 in *; change (2 ^ (11 - 1)) with 1024 in *; lia.
  - destruct (emax_even c V ltac:(lia)) as [j J]. rewrite J in *. destruct k; cbn [f_eb] in *; change (2 ^ (8 - 1)) with 128 in *; change (2 ^ (11 - 1)) with 1024 in *; lia.
Qed.
Lemma covers_exp_ok c k : valid_cfg c -> float_covers c (f_eb k) (f_fb k) -> exp_ok c.
Proof.
  intros V [_ H] _. pose proof (vc_es0 c V). assert (maxk c <= cN c - 2) by (unfold maxk; destruct (spec_eqb (csp c) WithNanInf); lia).
  pow_pos 2 (ces c). assert (maxk c * 2 ^ ces c <= (cN c - 2) * 2 ^ ces c) by nia.
  destruct k; cbn [f_eb] in *; change (2 ^ (8 - 1)) with 128 in *; change (2 ^ (11 - 1)) with 1024 in *; lia.
Qed.
Lemma k_hold c k : cF c = f_hold k -> f_fb k <= cF c.
Proof. intros ->. destruct k; cbn; lia. Qed.
Lemma et_double c k : et_holds c (f_eb k) -> et_holds c 11.
Proof. unfold et_holds. destruct k; cbn [f_eb]; lia. Qed.
Lemma covers_double c k : float_covers c (f_eb k) (f_fb k) -> float_covers c 11 52.
Proof. unfold float_covers. destruct k; cbn [f_eb f_fb]; change (2 ^ (8 - 1)) with 128; change (2 ^ (11 - 1)) with 1024; lia. Qed.

Lemma zero_real c : valid_cfg c -> real c 0.
Proof. intros V. pose proof (pow_ge4 c V). unfold real, maxreal. destruct (csp c); lia. Qed.
(** Negation of everything but the pattern 10..0. *)
Lemma neg_ext c b : valid_cfg c -> pattern c b -> b <> exceptional c -> p_neg c b = Ok (- b) /\ pattern c (- b) /\ same_ext (ext_of c (- b)) (x_opp (ext_of c b)).
Proof.
  intros V P NE. vcb V. pose proof (pow_ge4 c V) as P4. pose proof (pwH_bound c V) as PB. unfold exceptional, pattern in *. split; [|split; [lia|]].
  - unfold p_neg, cneg, tS. rewrite arith_ps by (try apply (vc_H _ V); lia). cbn [bind]. unfold deep, tS. rewrite cast_s_small by lia. reflexivity.
  - unfold ext_of. destruct (Z.eqb_spec b (- 2 ^ (cN c - 1))); [lia|]. destruct (Z.eqb_spec (- b) (- 2 ^ (cN c - 1))); [lia|].
    destruct (csp c); try (cbn [x_opp same_ext]; apply (value_opp c BN Bes)).
    destruct (Z.eqb_spec b (- 2 ^ (cN c - 1) + 1)), (Z.eqb_spec (- b) (- 2 ^ (cN c - 1) + 1)), (Z.eqb_spec b (2 ^ (cN c - 1) - 1)), (Z.eqb_spec (- b) (2 ^ (cN c - 1) - 1)); try lia;
      try reflexivity. cbn [x_opp same_ext]. apply (value_opp c BN Bes).
Qed.
Section pf.
Variable c : cfg.
Variable k : fft.
Variable rnd : fft -> Q -> Z.
Hypothesis V : valid_cfg c.
Hypothesis HF : cF c = f_hold k.
Hypothesis FC : float_covers c (f_eb k) (f_fb k).
Hypothesis ET : et_holds c (f_eb k).
Hypothesis RN : forall j, rounding (f_eb j) (f_fb j) (rnd j).
Let eb := f_eb k.
Let fb := f_fb k.

Lemma pf_STR : emax c < 2 ^ (eb - 1) - 2.
Proof using V FC. apply strict1; [assumption|]. destruct FC. unfold emax. assumption. Qed.
Lemma pf_X : exp_ok c. Proof using V FC. exact (covers_exp_ok c k V FC). Qed.
Lemma pf_FF : fb <= cF c. Proof using HF. exact (k_hold c k HF). Qed.
Lemma pf_mul_spec a b : products_fit c eb -> pattern c a -> pattern c b -> fits c eb fb (x_mul (ext_of c a) (ext_of c b)) ->
  exists r, pf_mul c k rnd a b = Ok r /\ posit_for c (via_float c eb fb) (x_mul (ext_of c a) (ext_of c b)) r.
Proof using V HF FC ET RN.
  intros PF Pa Pb Fit. pose proof pf_STR. pose proof pf_X. pose proof pf_FF. pose proof (strict2 c k V PF).
  destruct (fop_mul_spec eb fb (k_fmt k) (rnd k) (RN k) c V) with (a := a) (b := b) as (r & O & S); try assumption.
  exists r. split; [|exact S]. unfold pf_mul, pf_to, pf_of. rewrite k_tr. exact O.
Qed.
Lemma pf_div_spec a b : products_fit c eb -> pattern c a -> pattern c b -> fits c eb fb (x_div (ext_of c a) (ext_of c b)) ->
  exists r, pf_div c k rnd a b = Ok r /\ posit_for c (via_float c eb fb) (x_div (ext_of c a) (ext_of c b)) r.
Proof using V HF FC ET RN.
  intros PF Pa Pb Fit. pose proof pf_STR. pose proof pf_X. pose proof pf_FF. pose proof (strict2 c k V PF).
  destruct (fop_div_spec eb fb (k_fmt k) (rnd k) (RN k) c V) with (a := a) (b := b) as (r & O & S); try assumption.
  exists r. split; [|exact S]. unfold pf_div, pf_to, pf_of. rewrite k_tr. exact O.
Qed.
Lemma via_self v x : real c v -> (x == value c v)%Q -> via_float c eb fb x v.
Proof using V.
  intros R E. vcb V. assert (T : rounds_tz c x v) by (apply (rounds_tz_comp c BN Bes (value c v)); [symmetry; assumption|apply rounds_tz_exact; assumption]).
  split; [apply rounds_faithful; assumption|intros _; exact T].
Qed.
Lemma pf_add_spec a b : pattern c a -> pattern c b -> (a <> 0 -> b <> 0 -> fits c eb fb (x_add (ext_of c a) (ext_of c b))) ->
  exists r, pf_add c k rnd a b = Ok r /\ posit_for c (via_float c eb fb) (x_add (ext_of c a) (ext_of c b)) r.
Proof using V HF FC ET RN.
  intros Pa Pb Fit. pose proof pf_STR. pose proof pf_X. pose proof pf_FF. unfold pf_add, iszero.
  destruct (Z.eqb_spec a 0) as [->|NA].
  { exists b. split; [reflexivity|]. rewrite (ext_of_real c V 0 (zero_real c V)). destruct (ext_of_cases c V b Pb) as [[R E]|[[N E]|[I E]]]; rewrite E; cbn [x_add posit_for].
    - apply via_self; [assumption|]. change (value c 0) with 0%Q. ring.
    - apply N.
    - symmetry. apply inf_of_inf; assumption. }
  destruct (Z.eqb_spec b 0) as [->|NB].
  { exists a. split; [reflexivity|]. rewrite (ext_of_real c V 0 (zero_real c V)). destruct (ext_of_cases c V a Pa) as [[R E]|[[N E]|[I E]]]; rewrite E; cbn [x_add posit_for].
    - apply via_self; [assumption|]. change (value c 0) with 0%Q. ring.
    - apply N.
    - symmetry. apply inf_of_inf; assumption. }
  destruct (fop_add_spec eb fb (k_fmt k) (rnd k) (RN k) c V) with (a := a) (b := b) as (r & O & S); try assumption; [apply Fit; assumption|].
  exists r. split; [|exact S]. unfold pf_to, pf_of. rewrite k_tr. exact O.
Qed.
Lemma same_add e e' d : same_ext d e -> same_ext (x_add e' d) (x_add e' e).
Proof. destruct e, d, e'; cbn [same_ext x_add]; try discriminate; try reflexivity; intros H; try (injection H as ->; try reflexivity). rewrite H. reflexivity. destruct (Bool.eqb neg1 neg); reflexivity. Qed.
Lemma posit_for_same d e r : same_ext d e -> posit_for c (via_float c eb fb) d r -> posit_for c (via_float c eb fb) e r.
Proof using V.
  destruct d, e; cbn [same_ext posit_for]; try discriminate; intros H; try (injection H as ->); try (intros H'; exact H').
  apply via_float_comp; assumption.
Qed.
Lemma fits_same d e : same_ext d e -> fits c eb fb d -> fits c eb fb e.
Proof. destruct d, e; cbn [same_ext fits]; try discriminate; intros H; auto. apply room_via_comp; assumption. Qed.
Lemma same_sym d e : same_ext d e -> same_ext e d.
Proof. destruct d, e; cbn [same_ext]; intros H; try discriminate; try (symmetry; exact H). Qed.
Lemma pf_sub_spec a b : pattern c a -> pattern c b -> b <> exceptional c ->
  (a <> 0 -> b <> 0 -> fits c eb fb (x_add (ext_of c a) (x_opp (ext_of c b)))) ->
  exists r, pf_sub c k rnd a b = Ok r /\ posit_for c (via_float c eb fb) (x_add (ext_of c a) (x_opp (ext_of c b))) r.
Proof using V HF FC ET RN.
  intros Pa Pb NE Fit. destruct (neg_ext c b V Pb NE) as (N & P & S). unfold pf_sub, pf_neg. rewrite N. cbn [bind].
  pose proof (same_add _ (ext_of c a) _ S) as SA.
  destruct (pf_add_spec a (- b) Pa P) as (r & O & R).
  - intros A B. apply (fits_same (x_add (ext_of c a) (x_opp (ext_of c b)))); [apply same_sym; assumption|]. apply Fit; lia.
  - exists r. split; [exact O|]. apply (posit_for_same _ _ _ SA R).
Qed.

Lemma pf_inv_spec v : pattern c v -> fits c eb fb (x_div (FinVal 1) (ext_of c v)) ->
  exists r, pf_inv c k rnd v = Ok r /\ posit_for c (via_float c eb fb) (x_div (FinVal 1) (ext_of c v)) r.
Proof using V HF FC ET RN.
  intros P Fit. pose proof pf_STR. pose proof pf_X. pose proof pf_FF.
  assert (L : exists q, 0 <= lit_one k < 2 ^ (eb + fb + 1) /\ ieee_val eb fb (lit_one k) = FinVal q /\ (q == 1)%Q).
  { unfold eb, fb. destruct k; (eexists; split; [vm_compute; split; congruence|split; [vm_compute; reflexivity|reflexivity]]). }
  destruct L as (q & Bl & Il & Q1).
  assert (SX : same_ext (x_div (FinVal q) (ext_of c v)) (x_div (FinVal 1) (ext_of c v))).
  { destruct (ext_of c v); cbn [x_div]; try reflexivity. destruct (zero_q q0); rewrite (zero_q_comp _ _ Q1), (neg_q_comp _ _ Q1) || idtac; [reflexivity|]. cbn [same_ext]. rewrite Q1. reflexivity. }
  destruct (lit_div eb fb (k_fmt k) (rnd k) (RN k) c V) with (l := lit_one k) (q := q) (v := v) as (r & O & S); try assumption; try lra.
  - intros x E. destruct (ext_of_cases c V v P) as [[R E']|[[N E']|[I E']]]; rewrite E' in E; try discriminate. injection E as <-.
    apply (in_range_comp eb fb (1 / value c v)); [rewrite Q1; reflexivity|]. apply inv_range; try assumption. apply k_fmt.
  - apply (fits_same _ _ (same_sym _ _ SX)). exact Fit.
  - exists r. split; [unfold pf_inv, pf_to, pf_of; rewrite k_tr; exact O|]. apply (posit_for_same _ _ _ SX S).
Qed.
Lemma pf_twice_spec v : pattern c v -> (real c v -> room c (2 * value c v)) ->
  exists r, pf_twice c k rnd v = Ok r /\ posit_for c (rounds_tz c) (x_mul (FinVal 2) (ext_of c v)) r.
Proof using V HF FC ET RN.
  intros P Fit. pose proof pf_STR. pose proof pf_X. pose proof pf_FF. vcb V.
  assert (L : exists q, 0 <= lit_two k < 2 ^ (eb + fb + 1) /\ ieee_val eb fb (lit_two k) = FinVal q /\ (q == 2)%Q).
  { unfold eb, fb. destruct k; (eexists; split; [vm_compute; split; congruence|split; [vm_compute; reflexivity|reflexivity]]). }
  destruct L as (q & Bl & Il & Q2).
  assert (TF : forall x, ext_of c v = FinVal x -> real c v /\ x = value c v /\ is_float eb fb (q * x) /\ in_range eb fb (q * x) /\ (q * x == 2 * value c v)%Q).
  { intros x E. destruct (ext_of_cases c V v P) as [[R E']|[[N E']|[I E']]]; rewrite E' in E; try discriminate. injection E as <-.
    destruct (twice_float eb fb (k_fmt k) c V FC ltac:(assumption) ltac:(assumption) v R) as [F I].
    assert (QE : (2 * value c v == q * value c v)%Q) by (rewrite Q2; reflexivity).
    split; [assumption|]. split; [reflexivity|]. split; [apply (is_float_comp eb fb _ _ QE F)|]. split; [apply (in_range_comp eb fb _ _ QE I)|symmetry; assumption]. }
  destruct (lit_mul eb fb (k_fmt k) (rnd k) (RN k) c V) with (l := lit_two k) (q := q) (v := v) as (r & O & S); try assumption; try lra.
  - intros x E. apply TF. assumption.
  - destruct (ext_of c v) as [x|s|] eqn:E; cbn [x_mul fits]; [|destruct (zero_q q); exact I|exact I].
    destruct (TF x eq_refl) as (R & -> & F & _ & QE). right. split; [exact F|]. apply (room_comp c (2 * value c v)); [symmetry; assumption|]. auto.
  - exists r. split; [unfold pf_twice, pf_to, pf_of; rewrite k_tr; exact O|].
    destruct (ext_of c v) as [x|s|] eqn:E; cbn [x_mul posit_for] in *.
    + destruct (TF x eq_refl) as (R & -> & F & _ & QE). destruct S as [_ S]. apply (rounds_tz_comp c BN Bes (q * value c v)); auto.
    + rewrite (zero_q_comp _ _ Q2), (neg_q_comp _ _ Q2) in S. exact S.
    + exact S.
Qed.

(** * Through double *)
Lemma of_double_zero b q : 0 <= b < 2 ^ (11 + 52 + 1) -> ieee_val 11 52 b = FinVal q -> (q == 0)%Q -> p_of_float c double_trait b = Ok 0.
Proof using V ET.
  intros B I Q. vcb V. pose proof (k_fmt FDouble) as FO. cbn [f_eb f_fb] in FO.
  destruct (unpack_float 11 52 (cF c) (c_E c) true FO (vc_F c V) (c_E_width c V) (et_ok c 11 52 V FO (et_double c k ET)) b B) as [_ U].
  destruct (ieee_cases 11 52 FO b B) as (Bf & Be & C). rewrite I in C. destruct C as [C1 [[C2 C3]|[C2 C3]]].
  - assert (F0 : ffrac_of 52 b = 0).
    { rewrite Q in C3. destruct (Z.eq_dec (ffrac_of 52 b) 0) as [E|N]; [exact E|exfalso]. assert (dy (ffrac_of 52 b) (1 - (2 ^ (11 - 1) - 1) - 52) > 0)%Q by (apply dy_pos; lia).
      unfold sgn1 in C3. destruct (fsign_of 11 52 b); lra. }
    unfold p_of_float. change double_trait with (any_floattrait 11 52 true). rewrite U. rewrite C2.
    assert (M0 : dec_frac 52 (cF c) b = 0) by (unfold dec_frac; rewrite F0, Z.mul_0_l, Z.div_0_l by (apply Z.pow_nonzero; lia); reflexivity).
    rewrite M0. change (0 =? 2 ^ 11 - 1) with false. change (0 =? 0) with true. rewrite orb_true_r. cbn iota. cbn [bind]. apply pack_specials. assumption.
  - exfalso. rewrite Q in C3. assert (0 < dy (2 ^ 52 + ffrac_of 52 b) (fexp_of 11 52 b - (2 ^ (11 - 1) - 1) - 52))%Q by (apply dy_pos; lia).
    unfold sgn1 in C3. destruct (fsign_of 11 52 b); lra.
Qed.
Lemma of_double_special (s : bool) : p_of_float c double_trait (f_inf 11 52 s) = Ok (inf_of c s) /\ p_of_float c double_trait (f_nan 11 52) = Ok (exceptional c).
Proof using V HF ET FC.
  vcb V. pose proof (k_fmt FDouble) as FO. cbn [f_eb f_fb] in FO.
  pose proof (f_inf_ok 11 52 FO s) as [B1 _]. pose proof (f_nan_ok 11 52 FO) as [B2 _].
  pose proof (unpack_float 11 52 (cF c) (c_E c) true FO (vc_F c V) (c_E_width c V) (et_ok c 11 52 V FO (et_double c k ET))) as U.
  unfold p_of_float. change double_trait with (any_floattrait 11 52 true).
  split.
  - destruct (U _ B1) as [_ U1]. rewrite U1.
    replace (fexp_of 11 52 (f_inf 11 52 s)) with (2 ^ 11 - 1) by (destruct s; reflexivity).
    replace (dec_frac 52 (cF c) (f_inf 11 52 s)) with 0.
    2:{ unfold dec_frac. replace (ffrac_of 52 (f_inf 11 52 s)) with 0 by (destruct s; reflexivity). reflexivity. }
    replace (fsign_of 11 52 (f_inf 11 52 s)) with s by (destruct s; reflexivity).
    rewrite Z.eqb_refl. change (0 =? 0) with true. cbn iota. cbn [bind]. apply pack_specials. assumption.
  - destruct (U _ B2) as [_ U2]. rewrite U2. replace (fexp_of 11 52 (f_nan 11 52)) with (2 ^ 11 - 1) by reflexivity.
    assert (NZ : (dec_frac 52 (cF c) (f_nan 11 52) =? 0) = false) by (unfold dec_frac; rewrite HF; destruct k; reflexivity).
    rewrite NZ, Z.eqb_refl. cbn iota. cbn [bind]. apply pack_specials. assumption.
Qed.
(** An exact double, packed. *)
Lemma of_double_exact x x' : (x' == x)%Q -> is_float 11 52 x -> (x == 0)%Q \/ (pow2 (2 - 2 ^ (11 - 1)) <= Qabs x)%Q -> room c x ->
  exists r, p_of_float c double_trait (rnd FDouble x') = Ok r /\ rounds_tz c x r.
Proof using V HF FC ET RN.
  intros E F T RM. pose proof pf_X as X. vcb V. pose proof (k_fmt FDouble) as FO. cbn [f_eb f_fb] in FO. pose proof (RN FDouble) as RD. cbn [f_eb f_fb] in RD.
  pose proof (is_float_comp 11 52 _ _ (Qeq_sym _ _ E) F) as F'. destruct (rn_exact _ _ _ RD x' F') as (y & Y & YE).
  pose proof (rn_range _ _ _ RD x') as B.
  destruct T as [Z0|T].
  - exists 0. split; [|left; auto]. apply (of_double_zero _ y B Y). rewrite YE, E. exact Z0.
  - destruct (of_float_normal c 11 52 true (rnd FDouble x') y V X FO (et_double c k ET)) as [A _]; try assumption.
    + unfold frac_fits. pose proof pf_FF. destruct FC. unfold fb in *. lia.
    + rewrite YE, E. exact T.
    + destruct A as (r & A1 & A2). { apply (room_comp c x); [rewrite YE, E; reflexivity|assumption]. }
      exists r. split; [exact A1|]. apply (rounds_tz_comp c BN Bes y); [rewrite YE; exact E|assumption].
Qed.
Lemma pf_of_int_spec i : - 2 ^ 31 <= i < 2 ^ 31 -> room c (inject_Z i) ->
  exists r, pf_of_int c rnd i = Ok r /\ rounds_tz c (inject_Z i) r.
Proof using V HF FC ET RN.
  intros B RM. pose proof (k_fmt FDouble) as FO. cbn [f_eb f_fb] in FO.
  assert (P : forall m, 0 <= m <= 2 ^ 31 -> is_float 11 52 (inject_Z m)).
  { intros m M. apply (is_float_comp 11 52 (dy m 0)); [unfold dy; rewrite pow2_0; ring|]. apply is_float_dy; [assumption| |vm_compute; congruence|].
    - change (2 ^ (52 + 1)) with 9007199254740992. change (2 ^ 31) with 2147483648 in *. lia.
    - unfold dy. rewrite pow2_0, Qmult_1_r. rewrite pow2_Z by (vm_compute; congruence). apply inj_lt.
      assert (2 ^ 31 < 2 ^ (2 ^ (11 - 1))) by (apply Z.pow_lt_mono_r; vm_compute; congruence). lia. }
  assert (F : is_float 11 52 (inject_Z i)).
  { destruct (Z_le_gt_dec 0 i) as [S|S]; [apply P; lia|]. apply (is_float_comp 11 52 (- inject_Z (- i))); [rewrite <- inject_Z_opp, Z.opp_involutive; reflexivity|].
    apply is_float_opp; [assumption|]. apply P. lia. }
  destruct (of_double_exact (inject_Z i) (inject_Z i) ltac:(reflexivity) F) as (r & A & R); [|assumption|exists r; auto].
  destruct (Z.eq_dec i 0) as [->|NZ]; [left; reflexivity|right].
  assert (A : (Qabs (inject_Z i) == inject_Z (Z.abs i))%Q) by reflexivity. rewrite A.
  apply Qle_trans with (inject_Z 1); [vm_compute; congruence|]. apply inj_le. lia.
Qed.
Lemma pf_half_spec v : pattern c v -> (real c v -> room c ((1 # 2) * value c v)) ->
  exists r, pf_half c k rnd v = Ok r /\ posit_for c (rounds_tz c) (x_mul (FinVal (1 # 2)) (ext_of c v)) r.
Proof using V HF FC ET RN.
  intros P Fit. pose proof pf_STR as STR. pose proof pf_X as X. pose proof pf_FF as FF. vcb V.
  pose proof (k_fmt FDouble) as FO. cbn [f_eb f_fb] in FO. pose proof (RN FDouble) as RD. cbn [f_eb f_fb] in RD.
  destruct (to_ext eb fb (k_fmt k) c V FC ET FF v P) as (b & Ob & Bb & Sb & Zb).
  pose proof (op_neg eb fb (k_fmt k) c V v b P Bb Sb Zb) as Nb.
  (* the double operand *)
  assert (D : exists d, (match k with FFloat => f_widen 8 23 11 52 (rnd FDouble) b | FDouble => b end) = d /\ 0 <= d < 2 ^ (11 + 52 + 1) /\
     same_ext (ieee_val 11 52 d) (ext_of c v) /\ (forall s, ext_of c v = InfVal s -> f_neg 11 52 d = s)).
  { eexists. split; [reflexivity|]. unfold eb, fb in *. destruct k; cbn [f_eb f_fb] in *.
    - unfold f_widen. destruct (ext_of_cases c V v P) as [[R E]|[[N E]|[I E]]]; rewrite E in *; unfold same_ext in Sb; destruct (ieee_val 8 23 b) as [q|s|]; try discriminate.
      + split; [apply (rn_range _ _ _ RD)|]. split; [|discriminate].
        assert (F : is_float 11 52 q).
        { apply (is_float_comp 11 52 (value c v)); [symmetry; exact Sb|]. destruct (Z.eq_dec v 0) as [->|NZ]; [apply is_float_0; assumption|].
          destruct (covered c 11 52 v V FO) as [(b0 & q' & B' & I' & Q') _]; try assumption; [unfold frac_fits; destruct FC; lia|apply (covers_double c FFloat); assumption|]. exists b0, q'. auto. }
        destruct (rn_exact _ _ _ RD q F) as (y & Y & YE). rewrite Y. cbn [same_ext]. rewrite YE. exact Sb.
      + split; [apply f_nan_ok; assumption|]. split; [|discriminate]. destruct (f_nan_ok 11 52 FO) as [_ ->]. reflexivity.
      + injection Sb as ->. destruct (f_inf_ok 11 52 FO (v <? 0)) as [A B]. split; [exact A|]. rewrite B. split; [reflexivity|].
        intros s E'. injection E' as <-. apply (ieee_neg_inf 11 52 FO _ _ A B).
    - split; [exact Bb|]. split; [exact Sb|]. intros s E'. rewrite E' in Nb. exact Nb. }
  destruct D as (d & Ed & Bd & Sd & Nd). unfold pf_half, pf_to. rewrite k_tr. unfold eb, fb in Ob. rewrite Ob. cbn [bind]. rewrite Ed. clear Ed Nb.
  assert (LH : exists q, 0 <= lit_half < 2 ^ (11 + 52 + 1) /\ ieee_val 11 52 lit_half = FinVal q /\ (q == 1 # 2)%Q).
  { eexists. split; [vm_compute; split; congruence|split; [vm_compute; reflexivity|reflexivity]]. }
  destruct LH as (q & Bl & Il & Qh). unfold pf_of, f_tr, f_mul. rewrite Il.
  destruct (ext_of_cases c V v P) as [[R E]|[[N E]|[I E]]]; rewrite E in *; unfold same_ext in Sd; destruct (ieee_val 11 52 d) as [p|s|]; try discriminate; cbn [x_mul posit_for].
  - apply of_double_exact; [rewrite Qh, Sd; reflexivity| | |auto].
    + destruct (Z.eq_dec v 0) as [->|NZ]; [apply (is_float_comp 11 52 0); [reflexivity|apply is_float_0; assumption]|].
      destruct (real_dy eb fb c V FC FF v R NZ) as (n & e & m & Q & M & Em & S). pose proof (gran_nonneg c BN Bes) as G0.
      assert (G : gran c <= 52) by (rewrite gran_val; destruct FC; unfold eb, fb in *; destruct k; cbn [f_eb f_fb] in *; lia).
      assert (EB : emax c < 1022) by (unfold eb in STR; destruct k; cbn [f_eb] in STR; [change (2 ^ (8 - 1)) with 128 in STR|change (2 ^ (11 - 1)) with 1024 in STR]; lia).
      assert (Dh : ((1 # 2) * dy m (e - gran c) == dy m (e - gran c - 1))%Q) by (unfold dy; unfold Z.sub at 2; rewrite (pow2_plus _ (-1)); change (pow2 (-1)) with (1 # 2)%Q; ring).
      assert (F : is_float 11 52 (dy m (e - gran c - 1))).
      { pow_pos 2 (gran c). assert (2 ^ (gran c + 1) <= 2 ^ (52 + 1)) by (apply pow2_mono; lia). apply is_float_dy; [assumption|lia|change (2 ^ (11 - 1)) with 1024; lia|].
        apply Qlt_le_trans with (dy (2 ^ (gran c + 1)) (e - gran c - 1)); [apply dy_lt; lia|]. unfold dy. rewrite <- pow2_Z, <- pow2_plus by lia. apply pow2_le. change (2 ^ (11 - 1)) with 1024. lia. }
      destruct n; cbn [sgq] in Q.
      * apply (is_float_comp 11 52 (- dy m (e - gran c - 1))); [rewrite Q, <- Dh; ring|]. apply is_float_opp; assumption.
      * apply (is_float_comp 11 52 (dy m (e - gran c - 1))); [rewrite Q, <- Dh; ring|]. assumption.
    + destruct (Z.eq_dec v 0) as [->|NZ]; [left; reflexivity|right].
      destruct (value_scale eb fb c V FC FF v R NZ) as (e & [S _] & Be).
      assert (EB : emax c < 1022) by (unfold eb in STR; destruct k; cbn [f_eb] in STR; [change (2 ^ (8 - 1)) with 128 in STR|change (2 ^ (11 - 1)) with 1024 in STR]; lia).
      rewrite Qabs_Qmult. change (Qabs (1 # 2)) with (1 # 2)%Q. change (2 - 2 ^ (11 - 1)) with (-1022).
      assert (H : (pow2 (-1022) <= pow2 (e - 1))%Q) by (apply pow2_le; lia). unfold Z.sub in H. rewrite (pow2_plus e) in H. change (pow2 (-(1))) with (1 # 2)%Q in H. lra.
  - exists (exceptional c). split; [apply (of_double_special false)|reflexivity].
  - unfold f_isz. assert (HZ : Qeq_bool q 0 = false) by (destruct (Qeq_bool q 0) eqn:Hq; [apply Qeq_bool_iff in Hq; lra|reflexivity]). rewrite HZ.
    rewrite (Nd (v <? 0) eq_refl). assert (NL : f_neg 11 52 lit_half = false) by reflexivity. rewrite NL.
    change (zero_q (1 # 2)) with false. change (neg_q (1 # 2)) with false. cbn iota. cbn [posit_for]. rewrite xorb_false_l, xorb_false_r.
    eexists. split; [apply of_double_special|reflexivity].
Qed.
End pf.
