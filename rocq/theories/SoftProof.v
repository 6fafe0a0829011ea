(** The wrappers of softfloat.hpp. *)
From Coq Require Import ZArith QArith Qabs Lia Lqa List Bool Setoid.
From Verif Require Import Asimd SpecSimd AsimdProof2 Soft Res CInt Bits Traits Unpacked Cfg Posit Spec SpecFloat SpecAny FloatOps PositF AnyFloat QPow Core SpecLemmas Arith DecodeProof EncodeProof
  UOps UAdd Ops OpsAdd OpsUnary OpsUnary2 Specials Room Laws Configs Final1 Final2 Final3 Conv1 Conv2 Conv3 Conv4 Conv5 TabProof5 FloatProof FloatProof2 PositFProof PositFProof2 PositFProof3
  AnyProof AnyProof2 AnyProof3 Misc4.
Open Scope Z_scope.

Lemma sf_fmt s : fmt_ok (sf_eb s) (sf_fb s).
Proof. destruct s; split; cbn; unfold is_width; lia. Qed.
Lemma fmt_f : fmt_ok 8 23. Proof. exact (sf_fmt S32). Qed.
Lemma fmt_d : fmt_ok 11 52. Proof. split; unfold is_width; lia. Qed.

Section rn.
Context (rnd : Z -> Z -> Q -> Z).
Hypothesis RN : forall eb fb, fmt_ok eb fb -> rounding eb fb (rnd eb fb).
Context (s : sfmt).
Notation eb := (sf_eb s).
Notation fb := (sf_fb s).
Notation inr v := (0 <= v < 2 ^ (eb + fb + 1)).
Notation V v := (ieee_val eb fb v).

Lemma sf_neg_af v : sf_neg s v = af_neg eb fb v.
Proof. destruct s; reflexivity. Qed.
Lemma sf_neg_ok v : inr v -> inr (sf_neg s v) /\ same_ext (V (sf_neg s v)) (x_opp (V v)) /\ sf_neg s (sf_neg s v) = v.
Proof. rewrite !sf_neg_af. exact (neg_val eb fb (sf_fmt s) v). Qed.
Lemma sub_flip b : Z.lxor b (2 ^ (sf_w s - 1)) = sf_neg s b.
Proof. destruct s; reflexivity. Qed.

Lemma sf_add_ok a b : inr a -> inr b -> inr (sf_add rnd s a b) /\ V (sf_add rnd s a b) = x_round eb fb (rnd eb fb) (x_add (V a) (V b)).
Proof using RN. intros A B. destruct (f_add_gives eb fb (rnd eb fb) (sf_fmt s) (RN _ _ (sf_fmt s)) a b A B) as (R & E & _). split; assumption. Qed.
Lemma sf_sub_ok a b : inr a -> inr b ->
  inr (sf_sub rnd s a b) /\ same_ext (V (sf_sub rnd s a b)) (x_round eb fb (rnd eb fb) (x_add (V a) (x_opp (V b)))).
Proof using RN.
  intros A B. unfold sf_sub. rewrite sub_flip. destruct (sf_neg_ok b B) as (B' & E' & _).
  destruct (f_add_gives eb fb (rnd eb fb) (sf_fmt s) (RN _ _ (sf_fmt s)) a _ A B') as (R & E & _). split; [assumption|]. rewrite E.
  apply (round_same eb fb (rnd eb fb) (RN _ _ (sf_fmt s))). apply same_add2; [apply same_refl|assumption].
Qed.
Lemma sf_mul_ok a b : inr a -> inr b -> inr (sf_mul rnd s a b) /\ V (sf_mul rnd s a b) = x_round eb fb (rnd eb fb) (x_mul (V a) (V b)).
Proof using RN. intros A B. destruct (f_mul_gives eb fb (rnd eb fb) (sf_fmt s) (RN _ _ (sf_fmt s)) a b A B) as (R & E & _). split; assumption. Qed.
Lemma sf_div_ok a b : inr a -> inr b -> (forall q, V b = FinVal q -> (q == 0)%Q -> b = 0) ->
  inr (sf_div rnd s a b) /\ V (sf_div rnd s a b) = x_round eb fb (rnd eb fb) (x_div (V a) (V b)).
Proof using RN. intros A B Z. destruct (f_div_gives eb fb (rnd eb fb) (sf_fmt s) (RN _ _ (sf_fmt s)) a b A B Z) as (R & E & _). split; assumption. Qed.

Lemma int_float i : Z.abs i <= 2 ^ (fb + 1) -> is_float eb fb (inject_Z i).
Proof.
  intros L. pose proof (sf_fmt s) as FO.
  assert (P : forall j, 0 <= j <= 2 ^ (fb + 1) -> is_float eb fb (inject_Z j)).
  { intros j J. destruct (Z.eq_dec j (2 ^ (fb + 1))) as [->|N].
    - apply (is_float_comp eb fb (dy 1 (fb + 1))).
      + unfold dy. rewrite <- pow2_Z by (destruct s; cbn; lia). change (inject_Z 1) with 1%Q. ring.
      + apply (is_float_dy eb fb FO); try (destruct s; cbn; lia). unfold dy. change (inject_Z 1) with 1%Q. rewrite Qmult_1_l.
        apply pow2_lt. destruct s; cbn; lia.
    - apply (is_float_comp eb fb (dy j 0)); [unfold dy; change (pow2 0) with 1%Q; ring|].
      apply (is_float_dy eb fb FO); try lia; [destruct s; cbn; lia|].
      apply Qlt_le_trans with (dy (2 ^ (fb + 1)) 0); [apply dy_lt; lia|]. unfold dy. rewrite <- pow2_Z by (destruct s; cbn; lia).
      rewrite <- pow2_plus. apply pow2_le. destruct s; cbn; lia. }
  destruct (Z_le_gt_dec 0 i) as [I|I]; [apply P; lia|].
  apply (is_float_comp eb fb (- inject_Z (- i))); [rewrite inject_Z_opp; ring|]. apply (is_float_opp eb fb FO). apply P. lia.
Qed.
Lemma sf_int_ok i : Z.abs i <= 2 ^ (fb + 1) -> inr (sf_of_int rnd s i) /\ same_ext (V (sf_of_int rnd s i)) (FinVal (inject_Z i)).
Proof using RN.
  intros L. split; [apply (rn_range _ _ _ (RN _ _ (sf_fmt s)))|].
  apply (round_exact eb fb (rnd eb fb) (RN _ _ (sf_fmt s)) (inject_Z i)). now apply int_float.
Qed.
Lemma two_ok : inr (sf_two rnd s) /\ same_ext (V (sf_two rnd s)) (FinVal 2).
Proof using RN. apply (sf_int_ok 2). destruct s; cbn; lia. Qed.
Lemma one_ok : inr (sf_one rnd s) /\ same_ext (V (sf_one rnd s)) (FinVal 1).
Proof using RN. apply (sf_int_ok 1). destruct s; cbn; lia. Qed.
Lemma zero_ok : inr (sf_zero rnd s) /\ same_ext (V (sf_zero rnd s)) (FinVal 0).
Proof using RN. apply (sf_int_ok 0). destruct s; cbn; lia. Qed.
Lemma sf_half_ok a : inr a ->
  inr (sf_half rnd s a) /\ same_ext (V (sf_half rnd s a)) (x_round eb fb (rnd eb fb) (x_mul (FinVal (1 # 2)) (V a))).
Proof using RN.
  intros A. unfold sf_half. destruct two_ok as [B T]. destruct (sf_div_ok a (sf_two rnd s) A B) as [R E].
  { intros q Q Z. rewrite Q in T. cbn [same_ext] in T. rewrite T in Z. discriminate Z. }
  split; [assumption|]. rewrite E. apply (round_same eb fb (rnd eb fb) (RN _ _ (sf_fmt s))).
  destruct (V (sf_two rnd s)) as [t|t|]; cbn [same_ext] in T; try discriminate T.
  assert (ZT : zero_q t = false) by (rewrite (zero_q_comp _ _ T); reflexivity). assert (NT : neg_q t = false) by (rewrite (neg_q_comp _ _ T); reflexivity).
  destruct (V a) as [q|u|]; cbn [x_div x_mul].
  - rewrite ZT. cbn [same_ext]. rewrite T. field.
  - rewrite NT. destruct u; reflexivity.
  - reflexivity.
Qed.
Lemma dy_nonneg m e : 0 <= m -> (0 <= dy m e)%Q.
Proof.
  intros M. unfold dy. apply Qmult_le_0_compat; [change 0%Q with (inject_Z 0); now rewrite <- Zle_Qle|apply Qlt_le_weak, pow2_pos].
Qed.
Lemma sf_half_exact a q : inr a -> V a = FinVal q -> (2 * least_normal eb <= Qabs q)%Q ->
  same_ext (V (sf_half rnd s a)) (FinVal (q / 2)).
Proof using RN.
  intros A E L. destruct (sf_half_ok a A) as [_ H]. eapply same_trans; [exact H|]. rewrite E. cbn [x_mul].
  eapply same_trans; [apply (round_same eb fb (rnd eb fb) (RN _ _ (sf_fmt s)) _ (FinVal (q / 2))); cbn [same_ext]; field|].
  apply (round_exact eb fb (rnd eb fb) (RN _ _ (sf_fmt s))). clear H. pose proof (sf_fmt s) as FO.
  destruct (ieee_cases eb fb FO a A) as (Bf & Be & C). rewrite E in C. destruct C as [C1 C2].
  set (sg := fsign_of eb fb a) in *. set (fr := ffrac_of fb a) in *. set (ex := fexp_of eb fb a) in *.
  assert (F1 : 2 ^ (fb + 1) = 2 * 2 ^ fb) by (rewrite Z.pow_add_r by (destruct s; cbn; lia); ring).
  assert (SA : forall d, (0 <= d)%Q -> (Qabs (sgn1 sg * d) == d)%Q).
  { intros d D. unfold sgn1. destruct sg; rewrite Qabs_Qmult, (Qabs_pos d) by assumption; [change (Qabs (-1)) with 1%Q|change (Qabs 1) with 1%Q]; ring. }
  unfold least_normal in L. pose proof (fb_pos eb fb FO) as FP.
  assert (L2 : (2 * pow2 (2 - 2 ^ (eb - 1)) == pow2 (3 - 2 ^ (eb - 1)))%Q).
  { change 2%Q with (pow2 1). rewrite <- pow2_plus. replace (1 + (2 - 2 ^ (eb - 1))) with (3 - 2 ^ (eb - 1)) by lia. reflexivity. }
  rewrite L2 in L. clear L2.
  destruct C2 as [[C2 C3]|[C2 C3]].
  - exfalso. rewrite C3 in L. pose proof (SA (dy fr (1 - (2 ^ (eb - 1) - 1) - fb)) (dy_nonneg fr _ ltac:(lia))) as SA1. rewrite SA1 in L.
    assert (D : (dy fr (1 - (2 ^ (eb - 1) - 1) - fb) < dy (2 ^ fb) (1 - (2 ^ (eb - 1) - 1) - fb))%Q) by (apply dy_lt; lia).
    assert (D2 : (dy (2 ^ fb) (1 - (2 ^ (eb - 1) - 1) - fb) == pow2 (2 - 2 ^ (eb - 1)))%Q).
    { unfold dy. rewrite <- pow2_Z by (destruct s; cbn; lia). rewrite <- pow2_plus. replace (fb + (1 - (2 ^ (eb - 1) - 1) - fb)) with (2 - 2 ^ (eb - 1)) by lia. reflexivity. }
    assert (D3 : (pow2 (2 - 2 ^ (eb - 1)) <= pow2 (3 - 2 ^ (eb - 1)))%Q) by (apply pow2_le; lia). lra.
  - rewrite C3 in L. pose proof (SA (dy (2 ^ fb + fr) (ex - (2 ^ (eb - 1) - 1) - fb)) (dy_nonneg (2 ^ fb + fr) _ ltac:(lia))) as SA1. rewrite SA1 in L.
    assert (E2 : 2 <= ex).
    { destruct (Z_le_gt_dec 2 ex) as [G|G]; [assumption|exfalso]. assert (ex = 1) as X by lia. rewrite X in L.
      assert (D : (dy (2 ^ fb + fr) (1 - (2 ^ (eb - 1) - 1) - fb) < dy (2 ^ (fb + 1)) (1 - (2 ^ (eb - 1) - 1) - fb))%Q) by (apply dy_lt; lia).
      assert (D2 : (dy (2 ^ (fb + 1)) (1 - (2 ^ (eb - 1) - 1) - fb) == pow2 (3 - 2 ^ (eb - 1)))%Q).
      { unfold dy. rewrite <- pow2_Z by (destruct s; cbn; lia). rewrite <- pow2_plus. replace (fb + 1 + (1 - (2 ^ (eb - 1) - 1) - fb)) with (3 - 2 ^ (eb - 1)) by lia. reflexivity. }
      lra. }
    assert (D : is_float eb fb (dy (2 ^ fb + fr) (ex - (2 ^ (eb - 1) - 1) - fb - 1))).
    { apply (is_float_dy eb fb FO); try lia.
      apply Qlt_le_trans with (dy (2 ^ (fb + 1)) (ex - (2 ^ (eb - 1) - 1) - fb - 1)); [apply dy_lt; lia|].
      unfold dy. rewrite <- pow2_Z by (destruct s; cbn; lia). rewrite <- pow2_plus. apply pow2_le.
      assert (2 ^ eb = 2 * 2 ^ (eb - 1)) by (destruct s; reflexivity). lia. }
    assert (H2 : (sgn1 sg * dy (2 ^ fb + fr) (ex - (2 ^ (eb - 1) - 1) - fb - 1) == q / 2)%Q).
    { rewrite C3. unfold dy. replace (ex - (2 ^ (eb - 1) - 1) - fb - 1) with (ex - (2 ^ (eb - 1) - 1) - fb + -1) by lia.
      rewrite pow2_plus. change (pow2 (-1)) with (1 # 2)%Q. field. }
    apply (is_float_comp eb fb _ _ (Qeq_sym _ _ (Qeq_sym _ _ H2))). unfold sgn1. destruct sg.
    + apply (is_float_comp eb fb (- dy (2 ^ fb + fr) (ex - (2 ^ (eb - 1) - 1) - fb - 1))); [ring|]. now apply (is_float_opp eb fb FO).
    + apply (is_float_comp eb fb (dy (2 ^ fb + fr) (ex - (2 ^ (eb - 1) - 1) - fb - 1))); [ring|]. assumption.
Qed.
Lemma sf_inv_ok a : inr a -> (forall q, V a = FinVal q -> (q == 0)%Q -> a = 0) ->
  inr (sf_inv rnd s a) /\ same_ext (V (sf_inv rnd s a)) (x_round eb fb (rnd eb fb) (x_div (FinVal 1) (V a))).
Proof using RN.
  intros A Z. unfold sf_inv. destruct one_ok as [B T]. destruct (sf_div_ok (sf_one rnd s) a B A Z) as [R E].
  split; [assumption|]. rewrite E. apply (round_same eb fb (rnd eb fb) (RN _ _ (sf_fmt s))). apply same_div; [assumption|apply same_refl].
Qed.

(** Conversions. *)
Lemma conv_ok eb0 fb0 eb1 fb1 b : fmt_ok eb1 fb1 ->
  0 <= f_conv rnd eb0 fb0 eb1 fb1 b < 2 ^ (eb1 + fb1 + 1) /\
  ieee_val eb1 fb1 (f_conv rnd eb0 fb0 eb1 fb1 b) = x_round eb1 fb1 (rnd eb1 fb1) (ieee_val eb0 fb0 b).
Proof using RN.
  intros F1. unfold f_conv, f_widen. destruct (ieee_val eb0 fb0 b) as [q|t|]; cbn [x_round].
  - split; [apply (rn_range _ _ _ (RN _ _ F1))|reflexivity].
  - exact (f_inf_ok eb1 fb1 F1 t).
  - exact (f_nan_ok eb1 fb1 F1).
Qed.
Lemma conv_exact eb0 fb0 eb1 fb1 b : fmt_ok eb0 fb0 -> fmt_ok eb1 fb1 -> eb0 <= eb1 -> fb0 <= fb1 -> 0 <= b < 2 ^ (eb0 + fb0 + 1) ->
  same_ext (ieee_val eb1 fb1 (f_conv rnd eb0 fb0 eb1 fb1 b)) (ieee_val eb0 fb0 b).
Proof using RN.
  intros F0 F1 E F B. rewrite (proj2 (conv_ok eb0 fb0 eb1 fb1 b F1)). destruct (ieee_val eb0 fb0 b) as [q|t|] eqn:I; try apply same_refl.
  apply (round_exact eb1 fb1 (rnd eb1 fb1) (RN _ _ F1)). apply (is_float_widen eb0 fb0); try assumption. exists b, q. repeat split; try lia; try assumption; try reflexivity.
Qed.
Lemma conv_back eb1 fb1 v : fmt_ok eb1 fb1 -> eb <= eb1 -> fb <= fb1 -> inr v ->
  same_ext (V (f_conv rnd eb1 fb1 eb fb (f_conv rnd eb fb eb1 fb1 v))) (V v).
Proof using RN.
  intros F1 E F B. rewrite (proj2 (conv_ok eb1 fb1 eb fb _ (sf_fmt s))).
  eapply same_trans; [apply (round_same eb fb (rnd eb fb) (RN _ _ (sf_fmt s))); apply (conv_exact eb fb eb1 fb1 v (sf_fmt s) F1 E F B)|].
  destruct (V v) as [q|t|] eqn:I; try apply same_refl.
  apply (round_exact eb fb (rnd eb fb) (RN _ _ (sf_fmt s))). exists v, q. repeat split; try lia; try assumption; try reflexivity.
Qed.
Lemma sf_float_ok b : 0 <= b < 2 ^ 32 ->
  inr (sf_of_float rnd s b) /\ same_ext (V (sf_of_float rnd s b)) (x_round eb fb (rnd eb fb) (ieee_val 8 23 b)).
Proof using RN.
  intros B. destruct s; cbn [sf_of_float].
  - destruct (conv_ok 8 23 5 10 b (sf_fmt S16)) as [R E]. split; [assumption|]. cbn [sf_eb sf_fb]. rewrite E. apply same_refl.
  - split; [assumption|]. cbn [sf_eb sf_fb]. destruct (ieee_val 8 23 b) as [q|t|] eqn:I; try apply same_refl.
    pose proof (round_exact 8 23 (rnd 8 23) (RN _ _ fmt_f) q) as H. assert (IF : is_float 8 23 q) by (exists b, q; repeat split; try lia; try assumption; try reflexivity).
    specialize (H IF). cbn [x_round] in *. destruct (ieee_val 8 23 (rnd 8 23 q)); cbn [same_ext] in *; try discriminate H. now symmetry.
Qed.
Lemma sf_double_ok b : inr (sf_of_double rnd s b) /\ V (sf_of_double rnd s b) = x_round eb fb (rnd eb fb) (ieee_val 11 52 b).
Proof using RN. exact (conv_ok 11 52 eb fb b (sf_fmt s)). Qed.
Lemma sf_to_ok v : inr v -> same_ext (ieee_val 8 23 (sf_to_float rnd s v)) (V v) /\ same_ext (ieee_val 11 52 (sf_to_double rnd s v)) (V v).
Proof using RN.
  intros B. split; [|apply conv_exact; try assumption; [apply sf_fmt|apply fmt_d|destruct s; cbn; lia|destruct s; cbn; lia]].
  destruct s; cbn [sf_to_float]; [|apply same_refl]. apply (conv_exact 5 10 8 23 v (sf_fmt S16) fmt_f); try lia. exact B.
Qed.
End rn.
Lemma sf_round_trip rnd (RN : forall eb fb, fmt_ok eb fb -> rounding eb fb (rnd eb fb)) s v : 0 <= v < 2 ^ (sf_eb s + sf_fb s + 1) ->
  same_ext (ieee_val (sf_eb s) (sf_fb s) (sf_of_float rnd s (sf_to_float rnd s v))) (ieee_val (sf_eb s) (sf_fb s) v) /\
  same_ext (ieee_val (sf_eb s) (sf_fb s) (sf_of_double rnd s (sf_to_double rnd s v))) (ieee_val (sf_eb s) (sf_fb s) v).
Proof.
  intros B. split; [|apply (conv_back rnd RN s); try assumption; [apply fmt_d|destruct s; cbn; lia|destruct s; cbn; lia]].
  destruct s; cbn [sf_to_float sf_of_float]; [|apply same_refl].
  apply (conv_back rnd RN S16 8 23 v fmt_f); cbn [sf_eb sf_fb]; try lia. exact B.
Qed.

(** Comparisons. *)
Lemma f_lt_spec eb fb a b : f_lt eb fb a b = true <-> x_lt (ieee_val eb fb a) (ieee_val eb fb b).
Proof.
  unfold f_lt. destruct (ieee_val eb fb a) as [x|[]|], (ieee_val eb fb b) as [y|[]|]; cbn [x_lt]; try (split; [discriminate|tauto]); try tauto.
  rewrite negb_true_iff. split.
  - intros L. apply Qnot_le_lt. intros H. apply Qle_bool_iff in H. congruence.
  - intros L. destruct (Qle_bool y x) eqn:E; [|reflexivity]. apply Qle_bool_iff in E. lra.
Qed.
Lemma f_eq_spec eb fb a b : f_eq eb fb a b = true <-> x_eq (ieee_val eb fb a) (ieee_val eb fb b).
Proof.
  unfold f_eq. destruct (ieee_val eb fb a) as [x|t|], (ieee_val eb fb b) as [y|u|]; cbn [x_eq]; try (split; [discriminate|tauto]).
  - split; [apply Qeq_bool_eq|apply Qeq_eq_bool].
  - apply eqb_true_iff.
Qed.
Lemma f_le_spec eb fb a b : f_le eb fb a b = true <-> x_lt (ieee_val eb fb a) (ieee_val eb fb b) \/ x_eq (ieee_val eb fb a) (ieee_val eb fb b).
Proof.
  unfold f_le. destruct (ieee_val eb fb a) as [x|[]|], (ieee_val eb fb b) as [y|[]|]; cbn [x_lt x_eq]; try (split; [discriminate|intuition discriminate]); try tauto.
  rewrite Qle_bool_iff. split; intros H; [destruct (Qlt_le_dec x y); [now left|right; lra]|destruct H; lra].
Qed.
Lemma sf_compare s a b : let A := ieee_val (sf_eb s) (sf_fb s) a in let B := ieee_val (sf_eb s) (sf_fb s) b in
  (sf_eq s a b = true <-> x_eq A B) /\ (sf_lt s a b = true <-> x_lt A B) /\ (sf_gt s a b = true <-> x_lt B A) /\
  (sf_le s a b = true <-> x_lt A B \/ x_eq A B) /\ (sf_ge s a b = true <-> x_lt B A \/ x_eq B A).
Proof.
  cbv zeta. split; [apply f_eq_spec|]. split; [apply f_lt_spec|]. split; [apply f_lt_spec|]. split; apply f_le_spec.
Qed.
