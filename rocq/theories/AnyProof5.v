(** Emulated floats whose products and quotients are truncated exactly. *)
From Coq Require Import ZArith QArith Qabs Lia Lqa List Bool Setoid.
From Verif Require Import Res CInt Bits Traits Unpacked Cfg Posit Spec SpecFloat SpecAny FloatOps PositF AnyFloat QPow Core SpecLemmas Arith DecodeProof EncodeProof
  Conv1 Conv2 Conv3 Conv4 Conv5 TabProof4 TabProof5 FloatProof FloatProof2 PositFProof PositFProof2 PositFProof3
  AnyProof AnyProof2 AnyProof3 AnyProof4.
Open Scope Z_scope.

Section mj.
Context (eb fb : Z).
Hypothesis FO : fmt_ok eb fb.
Lemma float_mj q : is_float eb fb q -> exists m j, 0 <= m < 2 ^ (fb + 1) /\ 2 - 2 ^ (eb - 1) - fb <= j /\ j + fb + 1 <= 2 ^ (eb - 1) /\ (Qabs q == dy m j)%Q.
Proof using FO.
  intros (b & x & B & I & X). destruct (ieee_cases eb fb FO b B) as (Bf & Be & C). rewrite I in C. destruct C as [C1 C2].
  set (s := fsign_of eb fb b) in *. set (fr := ffrac_of fb b) in *. set (ex := fexp_of eb fb b) in *.
  pose proof FO as FO1. destruct FO1 as [W [E1 E2] Hf]. pose proof (eb_pow eb fb FO) as [EP EP2].
  assert (F1 : 2 ^ (fb + 1) = 2 * 2 ^ fb) by (rewrite Z.pow_add_r by lia; ring).
  assert (G : exists m j, 0 <= m < 2 ^ (fb + 1) /\ 2 - 2 ^ (eb - 1) - fb <= j /\ j + fb + 1 <= 2 ^ (eb - 1) /\ (x == sgn1 s * dy m j)%Q).
  { destruct C2 as [[C2 C3]|[C2 C3]]; [exists fr, (1 - (2 ^ (eb - 1) - 1) - fb)|exists (2 ^ fb + fr), (ex - (2 ^ (eb - 1) - 1) - fb)]; repeat split; try lia; exact C3. }
  destruct G as (m & j & M & J1 & J2 & XE). exists m, j. split; [exact M|]. split; [exact J1|]. split; [exact J2|].
  assert (D : (0 <= dy m j)%Q) by (rewrite <- (dy_0 j); apply dy_le; lia). rewrite <- X, XE. unfold sgn1. destruct s.
  - setoid_replace (-1 * dy m j)%Q with (- dy m j)%Q by ring. rewrite Qabs_opp. apply Qabs_pos. exact D.
  - rewrite Qmult_1_l. apply Qabs_pos. exact D.
Qed.
Lemma float_norm q : is_float eb fb q -> ~ (q == 0)%Q ->
  exists m j, 2 ^ fb <= m < 2 ^ (fb + 1) /\ 2 - 2 ^ (eb - 1) - 2 * fb <= j /\ j + fb + 1 <= 2 ^ (eb - 1) /\ (Qabs q == dy m j)%Q.
Proof using FO.
  intros F NZ. destruct (float_mj q F) as (m & j & M & J1 & J2 & E). destruct FO as [_ _ Hf].
  assert (MP : 0 < m). { destruct (Z.eq_dec m 0) as [->|]; [|lia]. exfalso. apply NZ. rewrite dy_0 in E. destruct (abs_case q) as [[_ A]|[_ A]]; rewrite A in E; lra. }
  pose proof (Z.log2_spec m MP) as [L1 L2]. set (l := Z.log2 m) in *. pose proof (Z.log2_nonneg m) as L0. fold l in L0.
  assert (LF : l <= fb). { assert (l < fb + 1) by (apply (Z.pow_lt_mono_r_iff 2); lia). lia. }
  exists (m * 2 ^ (fb - l)), (j - (fb - l)).
  assert (P1 : 2 ^ fb = 2 ^ l * 2 ^ (fb - l)) by (rewrite <- Z.pow_add_r by lia; f_equal; lia).
  assert (P2 : 2 ^ (fb + 1) = 2 ^ (Z.succ l) * 2 ^ (fb - l)) by (rewrite <- Z.pow_add_r by lia; f_equal; lia). pow_pos 2 (fb - l).
  split; [rewrite P1, P2; split; [apply Z.mul_le_mono_nonneg_r; lia|apply Z.mul_lt_mono_pos_r; lia]|]. split; [lia|]. split; [lia|].
  rewrite E, dy_pow by lia. replace (j - (fb - l) + (fb - l)) with j by lia. reflexivity.
Qed.
Lemma dy_top m j : 0 <= m < 2 ^ (fb + 1) -> (dy m j < pow2 (fb + 1 + j))%Q.
Proof using FO. destruct FO as [_ _ Hf]. intros M. rewrite pow2_plus, pow2_Z by lia. apply Qmult_lt_r; [apply pow2_pos|]. rewrite <- Zlt_Qlt. lia. Qed.
Lemma dy_bot m j : 2 ^ fb <= m -> (pow2 (fb + j) <= dy m j)%Q.
Proof using FO. destruct FO as [_ _ Hf]. intros M. rewrite pow2_plus, pow2_Z by lia. apply Qmult_le_r; [apply pow2_pos|]. rewrite <- Zle_Qle. lia. Qed.
Lemma float_normal q : is_float eb fb q -> (least_normal eb <= Qabs q)%Q ->
  exists m j, 2 ^ fb <= m < 2 ^ (fb + 1) /\ 2 - 2 ^ (eb - 1) - fb <= j /\ j + fb + 1 <= 2 ^ (eb - 1) /\ (Qabs q == dy m j)%Q.
Proof using FO.
  intros F L. destruct (float_norm q F) as (m & j & M & J1 & J2 & E).
  { intros Z. rewrite Z in L. change (Qabs 0) with 0%Q in L. pose proof (pow2_pos (2 - 2 ^ (eb - 1))). unfold least_normal in L. lra. }
  pose proof FO as FO1. destruct FO1 as [_ _ Hf]. pow_pos 2 fb.
  exists m, j. split; [exact M|]. split; [|split; [exact J2|exact E]]. rewrite E in L. unfold least_normal in L. pose proof (dy_top m j ltac:(lia)) as T.
  assert (2 - 2 ^ (eb - 1) < fb + 1 + j) by (apply pow2_lt_inv; lra). lia.
Qed.
End mj.

(** Truncation after rounding is truncation, if the larger format has a number between the exact one and any
    larger normal number of the smaller one. *)
Section tr.
Context (eb fb eb' fb' : Z) (rnd : Q -> Z).
Hypothesis FO : fmt_ok eb fb.
Hypothesis FO' : fmt_ok eb' fb'.
Hypothesis EB : eb <= eb'.
Hypothesis FB : fb <= fb'.
Hypothesis RN : rounding eb' fb' rnd.

Lemma rnd_abs_le q w y : is_float eb' fb' w -> (Qabs q <= w)%Q -> ieee_val eb' fb' (rnd q) = FinVal y -> (Qabs y <= w)%Q.
Proof using FO' RN.
  intros F L Y. apply Qabs_Qle_condition in L. apply Qabs_Qle_condition. split.
  - exact (rnd_ge eb' fb' rnd RN q _ (is_float_opp eb' fb' FO' _ F) (proj1 L) y Y).
  - exact (rnd_le eb' fb' rnd RN q w F (proj2 L) y Y).
Qed.
Lemma rnd_abs_ge q w y : is_float eb' fb' w -> (w <= Qabs q)%Q -> ieee_val eb' fb' (rnd q) = FinVal y -> (w <= Qabs y)%Q.
Proof using FO' RN.
  intros F L Y. destruct (abs_case q) as [[Q1 Q2]|[Q1 Q2]]; rewrite Q2 in L.
  - pose proof (rnd_ge eb' fb' rnd RN q w F L y Y). pose proof (Qle_Qabs y). lra.
  - pose proof (rnd_le eb' fb' rnd RN q _ (is_float_opp eb' fb' FO' _ F) ltac:(lra) y Y) as H. pose proof (Qle_Qabs (- y)) as H2. rewrite Qabs_opp in H2. lra.
Qed.
Lemma rnd_sign q y : ieee_val eb' fb' (rnd q) = FinVal y -> (0 <= y * q)%Q.
Proof using FO' RN.
  intros Y. pose proof (is_float_0 eb' fb' FO') as F0. destruct (Qlt_le_dec q 0) as [N|P].
  - pose proof (rnd_le eb' fb' rnd RN q 0 F0 ltac:(lra) y Y). nra.
  - pose proof (rnd_ge eb' fb' rnd RN q 0 F0 ltac:(lra) y Y). nra.
Qed.
Lemma ln_float : is_float eb fb (least_normal eb).
Proof using FO. unfold least_normal. pose proof (eb_pow eb fb FO) as [E1 E2]. apply (is_float_pow2 eb fb FO). destruct FO as [_ [F1 F2] Hf]. assert (2 ^ 1 <= 2 ^ (eb - 1)) by (apply pow2_mono; lia). change (2^1) with 2 in *. lia. Qed.

Lemma trunc_after q : (Qabs q <= pow2 (2 ^ (eb' - 1) - 1))%Q ->
  (forall p, is_float eb fb p -> (least_normal eb <= p)%Q -> (Qabs q < p)%Q -> exists w, is_float eb' fb' w /\ (Qabs q <= w)%Q /\ (w < p)%Q) ->
  forall r, float_for eb fb (x_round eb' fb' rnd (FinVal q)) r -> float_for eb fb (FinVal q) r.
Proof using FO FO' EB FB RN.
  intros FI GAP r (R & H). destruct (rnd_fin eb' fb' FO' rnd RN q FI) as (y & Y). cbn [x_round] in H. rewrite Y in H. destruct H as [H1 H2].
  assert (WD : forall p, is_float eb fb p -> is_float eb' fb' p) by (intros p P; exact (is_float_widen eb fb eb' fb' p FO FO' EB FB P)).
  assert (LT : forall p, is_float eb fb p -> (least_normal eb <= p)%Q -> (p <= Qabs y)%Q -> (p <= Qabs q)%Q).
  { intros p P LN L. apply Qnot_lt_le. intros C. destruct (GAP p P LN C) as (w & W & W1 & W2). pose proof (rnd_abs_le q w y W W1 Y). lra. }
  assert (GE : forall p, is_float eb fb p -> (p <= Qabs q)%Q -> (p <= Qabs y)%Q) by (intros p P L; exact (rnd_abs_ge q p y (WD p P) L Y)).
  split; [exact R|]. split; intros L.
  - pose proof (GE _ ln_float L) as LY. destruct (H1 LY) as (_ & t & IT & A1 & A2 & A3). split; [exact R|]. exists t. split; [exact IT|].
    assert (TF : is_float eb fb t) by (exists r, t; split; [exact R|split; [exact IT|reflexivity]]).
    assert (TA : is_float eb fb (Qabs t)).
    { destruct (abs_case t) as [[_ T]|[_ T]]; [apply (is_float_comp eb fb t); [symmetry; exact T|exact TF]|
        apply (is_float_comp eb fb (- t)); [symmetry; exact T|apply (is_float_opp eb fb FO); exact TF]]. }
    assert (TL : (least_normal eb <= Qabs t)%Q).
    { destruct ln_float as (b0 & q0 & B0 & I0 & Q0). rewrite <- Q0. pose proof (pow2_pos (2 - 2 ^ (eb - 1))) as PP. unfold least_normal in *.
      assert (QA : (Qabs q0 == q0)%Q) by (apply Qabs_pos; lra). pose proof (A3 b0 q0 B0 I0 ltac:(rewrite QA, Q0; exact LY)) as AA. lra. }
    split; [apply LT; assumption|]. split.
    + pose proof (rnd_sign q y Y) as S. assert (YN : ~ (y == 0)%Q).
      { intros Z. rewrite Z in LY. change (Qabs 0) with 0%Q in LY. pose proof (pow2_pos (2 - 2 ^ (eb - 1))). unfold least_normal in LY. lra. }
      destruct (Qlt_le_dec y 0) as [N|P]; [assert (t <= 0)%Q by nra; assert (q <= 0)%Q by nra; nra|].
      assert (0 < y)%Q by (destruct (Qlt_le_dec 0 y); [assumption|exfalso; apply YN; lra]). assert (0 <= t)%Q by nra. assert (0 <= q)%Q by nra. nra.
    + intros b' q' B' I' L'. apply (A3 b' q' B' I'). apply GE; [|exact L'].
      assert (QF : is_float eb fb q') by (exists b', q'; split; [exact B'|split; [exact I'|reflexivity]]).
      destruct (abs_case q') as [[_ T]|[_ T]]; [apply (is_float_comp eb fb q'); [symmetry; exact T|exact QF]|
        apply (is_float_comp eb fb (- q')); [symmetry; exact T|apply (is_float_opp eb fb FO); exact QF]].
  - apply H2. apply Qnot_le_lt. intros C. pose proof (LT _ ln_float (Qle_refl _) C). lra.
Qed.
End tr.

Section room.
Context (eb fb : Z) (k : fft) (rnd : fft -> Q -> Z).
Notation ebk := (f_eb k).
Notation fbk := (f_fb k).
Hypothesis EM : emulated eb fb ebk fbk.
Hypothesis RM : roomy_fmt eb fb ebk fbk.
Hypothesis RN : forall j, rounding (f_eb j) (f_fb j) (rnd j).
Notation inr v := (0 <= v < 2 ^ (eb + fb + 1)).
Notation V := (ieee_val eb fb).

Lemma room_pows : 0 < 2 ^ (eb - 1) /\ 2 ^ eb = 2 * 2 ^ (eb - 1) /\ 2 ^ eb + 2 * fb <= 2 ^ (ebk - 1) /\ 1 <= fb.
Proof using EM RM.
  destruct EM as ([W [E1 E2] Hf] & _). destruct RM as [_ R]. pow_pos 2 (eb - 1). split; [assumption|].
  split; [replace eb with (eb - 1 + 1) at 1 by lia; rewrite Z.pow_add_r by lia; ring|]. split; [exact R|exact Hf].
Qed.
Lemma seen_all v : inr v -> same_ext (seen eb fb ebk v) (V v).
Proof using EM RM.
  intros B. unfold seen. destruct (V v) as [q|s|] eqn:I; try reflexivity. destruct (Qle_bool (least_normal ebk) (Qabs q)) eqn:L; [apply same_refl|].
  cbn [same_ext]. destruct (Qeq_dec q 0) as [Z|NZ]; [symmetry; exact Z|]. exfalso.
  assert (F : is_float eb fb q) by (exists v, q; split; [exact B|split; [exact I|reflexivity]]).
  destruct room_pows as (P1 & P2 & P3 & P4). destruct (float_norm eb fb (proj1 EM) q F NZ) as (m & j & M & J1 & J2 & E).
  assert (T : (least_normal ebk <= Qabs q)%Q); [|apply Qle_bool_iff in T; congruence].
  rewrite E. apply Qle_trans with (pow2 (fb + j)); [apply pow2_le; lia|]. apply (dy_bot eb fb (proj1 EM)). lia.
Qed.

Lemma mul_float p q : is_float eb fb p -> is_float eb fb q -> is_float ebk fbk (p * q).
Proof using EM RM.
  intros P Q. destruct room_pows as (P1 & P2 & P3 & P4). pose proof (k_fmt k) as FK. destruct RM as [R1 _].
  destruct (float_mj eb fb (proj1 EM) p P) as (m & j & M & J1 & J2 & E). destruct (float_mj eb fb (proj1 EM) q Q) as (n & i & N & I1 & I2 & E').
  assert (D : is_float ebk fbk (dy (m * n) (j + i))).
  { assert (X : 2 ^ (fb + 1) * 2 ^ (fb + 1) <= 2 ^ (fbk + 1)) by (rewrite <- Z.pow_add_r by lia; apply pow2_mono; lia).
    apply (is_float_dy ebk fbk FK); [nia|lia|]. rewrite <- dy_mul.
    apply Qlt_le_trans with (pow2 (fb + 1 + j) * pow2 (fb + 1 + i))%Q; [|rewrite <- pow2_plus; apply pow2_le; lia].
    pose proof (dy_top eb fb (proj1 EM) m j M). pose proof (dy_top eb fb (proj1 EM) n i N).
    assert (0 <= dy m j)%Q by (rewrite <- (dy_0 j); apply dy_le; lia). assert (0 <= dy n i)%Q by (rewrite <- (dy_0 i); apply dy_le; lia). nra. }
  rewrite <- dy_mul in E || idtac. assert (A : (Qabs (p * q) == dy (m * n) (j + i))%Q) by (rewrite Qabs_Qmult, E, E', dy_mul; reflexivity).
  destruct (abs_case (p * q)) as [[_ T]|[_ T]]; rewrite T in A.
  - apply (is_float_comp ebk fbk _ _ (Qeq_sym _ _ A)). exact D.
  - apply (is_float_comp ebk fbk (- dy (m * n) (j + i))); [rewrite <- A; ring|]. apply (is_float_opp ebk fbk FK). exact D.
Qed.

Lemma x_round_val eb' fb' rn e : (forall q, e <> FinVal q) -> x_round eb' fb' rn e = e.
Proof. destruct e; intros H; [destruct (H q); reflexivity|reflexivity|reflexivity]. Qed.

Lemma af_mul_exact a b : inr a -> inr b -> exists r, af_mul eb fb k rnd a b = Ok r /\ float_for eb fb (x_mul (V a) (V b)) r.
Proof using EM RM RN.
  intros A B. destruct (af_mul_spec eb fb k rnd EM RN a b A B) as (r & O & H). exists r. split; [exact O|].
  refine (float_for_same _ _ _ _ _ _ H).
  apply same_trans with (x_round ebk fbk (rnd k) (x_mul (V a) (V b))); [apply (round_same _ _ _ (RN k)); apply same_mul; apply seen_all; assumption|].
  destruct (V a) as [p|s|] eqn:IA, (V b) as [q|t|] eqn:IB; cbn [x_mul]; try (destruct (zero_q _)); try apply same_refl.
  apply (round_exact _ _ _ (RN k)). apply mul_float; [exists a, p|exists b, q]; (split; [assumption|split; [assumption|reflexivity]]).
Qed.

Lemma div_gap x y : is_float eb fb x -> is_float eb fb y -> ~ (y == 0)%Q ->
  (Qabs (x / y) <= pow2 (2 ^ (ebk - 1) - 1))%Q /\
  (forall p, is_float eb fb p -> (least_normal eb <= p)%Q -> (Qabs (x / y) < p)%Q -> exists w, is_float ebk fbk w /\ (Qabs (x / y) <= w)%Q /\ (w < p)%Q).
Proof using EM RM.
  intros FX FY NY. destruct room_pows as (P1 & P2 & P3 & P4). pose proof (k_fmt k) as FK. destruct RM as [R1 _]. pose proof (proj1 EM) as FO.
  destruct (float_norm eb fb FO y FY NY) as (m2 & j2 & M2 & J2 & J2' & E2). pow_pos 2 fb.
  assert (Y0 : (0 < dy m2 j2)%Q) by (apply dy_pos; lia).
  set (qa := Qabs (x / y)) in *.
  assert (QY : (qa * dy m2 j2 == Qabs x)%Q) by (unfold qa; rewrite <- E2, <- Qabs_Qmult; apply Qabs_wd; field; exact NY).
  assert (F1 : 2 ^ (fb + 1) = 2 * 2 ^ fb) by (rewrite Z.pow_add_r by lia; ring).
  destruct (Qeq_dec x 0) as [X0|NX].
  { assert (Q0 : (qa == 0)%Q) by (rewrite X0 in QY; change (Qabs 0) with 0%Q in QY; nra).
    split; [rewrite Q0; apply Qlt_le_weak, pow2_pos|]. intros p FP LN L. exists 0%Q. split; [apply is_float_0; exact FK|]. split; lra. }
  destruct (float_norm eb fb FO x FX NX) as (m1 & j1 & M1 & J1 & J1' & E1). rewrite E1 in QY.
  pose proof (dy_top eb fb FO m1 j1 ltac:(lia)) as T1. pose proof (dy_bot eb fb FO m2 j2 ltac:(lia)) as B2.
  assert (QN : (0 <= qa)%Q) by apply Qabs_nonneg. split.
  - apply Qmult_le_r with (dy m2 j2); [exact Y0|]. rewrite QY. apply Qle_trans with (pow2 (fb + 1 + j1)); [lra|].
    apply Qle_trans with (pow2 (2 ^ (ebk - 1) - 1) * pow2 (fb + j2))%Q; [rewrite <- pow2_plus; apply pow2_le; lia|].
    rewrite Qmult_comm. rewrite (Qmult_comm (pow2 (2 ^ (ebk - 1) - 1))). apply Qmult_le_r; [apply pow2_pos|exact B2].
  - intros p FP LN L. assert (PA : (Qabs p == p)%Q) by (apply Qabs_pos; lra).
    destruct (float_normal eb fb FO p FP ltac:(rewrite PA; exact LN)) as (m & j & M & J & J' & E). rewrite PA in E.
    assert (Z2 : 2 ^ (fb + 1) * 2 ^ (fb + 1) <= 2 ^ (fbk + 1)) by (rewrite <- Z.pow_add_r by lia; apply pow2_mono; lia).
    set (w := dy (m * 2 ^ (fb + 1) - 1) (j - fb - 1)).
    assert (PE : (p == dy (m * 2 ^ (fb + 1)) (j - fb - 1))%Q) by (rewrite E, dy_pow by lia; replace (j - fb - 1 + (fb + 1)) with j by lia; reflexivity).
    assert (WP : (w < p)%Q) by (rewrite PE; apply dy_lt; lia).
    exists w. split; [|split; [|exact WP]].
    + apply (is_float_dy ebk fbk FK); [nia|lia|]. fold w. apply Qlt_le_trans with p; [exact WP|]. rewrite E.
      apply Qle_trans with (pow2 (fb + 1 + j)); [apply Qlt_le_weak, (dy_top eb fb FO); lia|apply pow2_le; lia].
    + apply Qmult_le_r with (dy m2 j2); [exact Y0|]. rewrite QY. unfold w. rewrite dy_mul.
      destruct (Z_le_gt_dec (j + j2) j1) as [C|C].
      * assert (LL : (qa * dy m2 j2 < p * dy m2 j2)%Q) by (apply Qmult_lt_r; assumption). rewrite QY, E, dy_mul, (dy_align m1 j1 (j + j2) C) in LL.
        apply dy_lt_inv in LL. set (A := m1 * 2 ^ (j1 - (j + j2))) in *.
        rewrite (dy_align m1 j1 (j + j2) C). fold A. rewrite (dy_align A (j + j2) (j - fb - 1 + j2)) by lia.
        replace (j + j2 - (j - fb - 1 + j2)) with (fb + 1) by lia. apply dy_le. nia.
      * apply Qle_trans with (pow2 (fb + 1 + j1)); [lra|]. apply Qle_trans with (pow2 (2 * fb - 1 + (j + j2))); [apply pow2_le; lia|].
        assert (FF : 2 ^ (2 * fb + fb) = 2 ^ fb * 2 ^ fb * 2 ^ fb) by (rewrite <- !Z.pow_add_r by lia; f_equal; lia).
        replace (2 * fb - 1 + (j + j2)) with (2 * fb + fb + (j - fb - 1 + j2)) by lia. rewrite pow2_plus, pow2_Z by lia.
        apply Qmult_le_r; [apply pow2_pos|]. rewrite <- Zle_Qle. rewrite FF, F1. 
        assert (2 ^ fb * 2 ^ fb <= m * (2 * 2 ^ fb) - 1) by nia. nia.
Qed.

Lemma af_div_exact a b : inr a -> inr b -> exists r, af_div eb fb k rnd a b = Ok r /\ float_for eb fb (x_div (V a) (V b)) r.
Proof using EM RM RN.
  intros A B. destruct (af_div_spec eb fb k rnd EM RN a b A B) as (r & O & H). exists r. split; [exact O|].
  pose proof (float_for_same _ _ _ _ _ (round_same ebk fbk (rnd k) (RN k) _ _ (same_div _ _ _ _ (seen_all a A) (seen_all b B))) H) as H'. clear H.
  destruct (V a) as [p|s|] eqn:IA, (V b) as [q|t|] eqn:IB; cbn [x_div] in *; try (exact H').
  - destruct (zero_q q) eqn:ZQ; [destruct (zero_q p); exact H'|].
    assert (NQ : ~ (q == 0)%Q) by (intros E; unfold zero_q in ZQ; apply Qeq_bool_iff in E; congruence).
    destruct (div_gap p q) as [G1 G2]; [exists a, p; split; [exact A|split; [exact IA|reflexivity]]|exists b, q; split; [exact B|split; [exact IB|reflexivity]]|exact NQ|].
    destruct EM as (FO & E1 & E2 & _). exact (trunc_after eb fb ebk fbk (rnd k) FO (k_fmt k) E1 E2 (RN k) _ G1 G2 r H').
  - refine (float_for_same _ _ _ _ _ _ H'). apply (round_exact _ _ _ (RN k)). apply is_float_0. apply k_fmt.
Qed.
Lemma af_inv_exact v : inr v -> exists r, af_inv eb fb k rnd v = Ok r /\ float_for eb fb (x_div (FinVal 1) (V v)) r.
Proof using EM RM RN.
  intros B. destruct (af_inv_spec eb fb k rnd EM RN v B) as (r & O & H). exists r. split; [exact O|].
  pose proof (float_for_same _ _ _ _ _ (round_same ebk fbk (rnd k) (RN k) _ _ (same_div _ _ _ _ (same_refl (FinVal 1)) (seen_all v B))) H) as H'. clear H.
  destruct (V v) as [q|t|] eqn:IB; cbn [x_div] in *; try (exact H').
  - destruct (zero_q q) eqn:ZQ; [destruct (zero_q 1); exact H'|].
    assert (NQ : ~ (q == 0)%Q) by (intros E; unfold zero_q in ZQ; apply Qeq_bool_iff in E; congruence).
    destruct (div_gap 1 q) as [G1 G2]; [|exists v, q; split; [exact B|split; [exact IB|reflexivity]]|exact NQ|].
    { destruct EM as (FO & _). apply (is_float_comp eb fb (pow2 0)); [apply pow2_0|]. apply (is_float_pow2 eb fb FO). destruct room_pows as (P1 & P2 & P3 & P4). destruct FO as [_ [E1 E2] _].
      assert (2 ^ 1 <= 2 ^ (eb - 1)) by (apply pow2_mono; lia). change (2^1) with 2 in *. lia. }
    destruct EM as (FO & E1 & E2 & _). exact (trunc_after eb fb ebk fbk (rnd k) FO (k_fmt k) E1 E2 (RN k) _ G1 G2 r H').
  - refine (float_for_same _ _ _ _ _ _ H'). apply (round_exact _ _ _ (RN k)). apply is_float_0. apply k_fmt.
Qed.
End room.
