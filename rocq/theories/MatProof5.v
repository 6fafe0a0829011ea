(** Widening is exact, and narrowing undoes it. *)
From Coq Require Import ZArith QArith Qabs Bool List Lia Lqa.
From Verif Require Import Res CInt Spec SpecFloat SpecHalf Core Arith QPow EncodeProof Conv1 Conv4 Conv5 FloatProof SoftProof WideProof MatHalf MatProof MatProof2 MatProof3 MatProof4.
Import ListNotations.
Open Scope Z_scope.

Lemma half_fbits s E m : sg15 s + E * 1024 + m = fbits 5 10 s E m.
Proof. unfold fbits, sg15. destruct s; reflexivity. Qed.
Lemma half_is_nan s E m : 0 <= E < 32 -> 0 <= m < 1024 ->
  ieee_val 5 10 (sg15 s + E * 1024 + m) = NaNVal <-> nan_half E m = true.
Proof.
  intros HE Hm. rewrite half_fbits. unfold nan_half. destruct (Z.eqb_spec E 31) as [->|N]; cbn [andb].
  - change 31 with (2 ^ 5 - 1). rewrite (ieee_top 5 10 s m fmt_h) by (change (2 ^ 10) with 1024; assumption). destruct (m =? 0); cbn [negb]; split; congruence.
  - destruct (ieee_code 5 10 fmt_h s (E * 1024 + m)) as (q & I & _); [change ((2 ^ 5 - 1) * 2 ^ 10) with 31744; lia|].
    replace (fbits 5 10 s E m) with (E * 1024 + m + (if s then 2 ^ (5 + 10) else 0)) by (unfold fbits; destruct s; change (2 ^ 10) with 1024; lia).
    rewrite I. split; discriminate.
Qed.

Section fmt.
Variables eb fb : Z.
Hypothesis FO : fmt_ok eb fb.
Hypothesis E8 : 8 <= eb.
Hypothesis F11 : 11 <= fb.
Local Notation bias := (2 ^ (eb - 1) - 1).
Lemma wide_ranges E m : 0 <= E < 32 -> 0 <= m < 1024 -> 0 <= wide_e bias E m < 2 ^ eb /\ 0 <= wide_m E m < 1024.
Proof using FO E8 F11.
  intros HE Hm. destruct (eb_pow eb fb FO) as [EP _]. assert (PB : 2 ^ (8 - 1) <= 2 ^ (eb - 1)) by (apply Z.pow_le_mono_r; lia). change (2 ^ (8 - 1)) with 128 in PB.
  unfold wide_e, wide_m. destruct (Z.eqb_spec E 0) as [E0|E0].
  - destruct (Z.eqb_spec m 0) as [M0|M0]; [lia|]. destruct (log2_half m ltac:(lia)). lia.
  - destruct (Z.eqb_spec E 31); [destruct (m =? 0); lia|lia].
Qed.
Lemma wide_value E m : 0 <= E < 31 -> 0 <= m < 1024 ->
  (mval eb fb (wide_e bias E m * 2 ^ fb + wide_m E m * 2 ^ (fb - 10)) == hv (E * 1024 + m))%Q.
Proof using FO E8 F11.
  intros HE Hm. destruct (wide_ranges E m ltac:(lia) Hm) as [R1 R2]. assert (PB : 2 ^ (8 - 1) <= 2 ^ (eb - 1)) by (apply Z.pow_le_mono_r; lia). change (2 ^ (8 - 1)) with 128 in PB.
  pow_pos 2 (fb - 10). assert (PF : 2 ^ fb = 1024 * 2 ^ (fb - 10)) by (change 1024 with (2 ^ 10); rewrite <- Z.pow_add_r by lia; f_equal; lia).
  destruct (Z.eqb_spec E 0) as [E0|E0].
  - subst E. unfold wide_e, wide_m in *. cbn [Z.eqb] in *. rewrite Z.mul_0_l, Z.add_0_l, hv_low by lia. destruct (Z.eqb_spec m 0) as [M0|M0].
    + subst m. rewrite !Z.mul_0_l, Z.add_0_l, (mval_0 eb fb FO). symmetry. apply dy_0.
    + destruct (log2_half m ltac:(lia)) as [L1 L2]. rewrite (mval_normal eb fb FO) by (lia || nia).
      replace (2 ^ fb + (m * 2 ^ (10 - Z.log2 m) - 1024) * 2 ^ (fb - 10)) with (m * 2 ^ (10 - Z.log2 m) * 2 ^ (fb - 10)) by lia.
      rewrite !dy_pow by lia. replace (bias - 15 - (9 - Z.log2 m) - bias - fb + (fb - 10) + (10 - Z.log2 m)) with (-24) by lia. reflexivity.
  - assert (W : wide_e bias E m = E - 15 + bias /\ wide_m E m = m).
    { unfold wide_e, wide_m. destruct (Z.eqb_spec E 0); [lia|]. destruct (Z.eqb_spec E 31); [lia|]. split; reflexivity. }
    destruct W as [-> ->]. rewrite (mval_normal eb fb FO) by (lia || nia). rewrite hv_normal by lia.
    replace (2 ^ fb + m * 2 ^ (fb - 10)) with ((1024 + m) * 2 ^ (fb - 10)) by lia. rewrite dy_pow by lia.
    replace (E - 15 + bias - bias - fb + (fb - 10)) with (E - 25) by lia. reflexivity.
Qed.
Lemma wide_same s E m : 0 <= E < 32 -> 0 <= m < 1024 ->
  same_number eb fb (sg15 s + E * 1024 + m) (fbits eb fb (wide_s s E m) (wide_e bias E m) (wide_m E m * 2 ^ (fb - 10))).
Proof using FO E8 F11.
  intros HE Hm. destruct (wide_ranges E m HE Hm) as [R1 R2].
  pow_pos 2 (fb - 10). assert (PF : 2 ^ fb = 1024 * 2 ^ (fb - 10)) by (change 1024 with (2 ^ 10); rewrite <- Z.pow_add_r by lia; f_equal; lia).
  assert (RM : 0 <= wide_m E m * 2 ^ (fb - 10) < 2 ^ fb) by nia.
  pose proof (half_is_nan s E m HE Hm) as NN. destruct (eb_pow eb fb FO) as [EP _].
  split; [|split].
  - apply (fbits_range eb fb FO); assumption.
  - rewrite half_fbits in *. destruct (Z.eq_dec E 31) as [->|N].
    + change 31 with (2 ^ 5 - 1) in NN |- *. rewrite (ieee_top 5 10 s m fmt_h) by (change (2 ^ 10) with 1024; assumption).
      unfold wide_s, wide_e, wide_m, nan_half. change (2 ^ 5 - 1) with 31. change (31 =? 0) with false. change (31 =? 31) with true. cbn [andb].
      replace (2 * bias + 1) with (2 ^ eb - 1) by lia.
      destruct (Z.eqb_spec m 0) as [M0|M0]; cbn [negb]; rewrite (ieee_top eb fb) by (assumption || lia).
      * rewrite Z.mul_0_l, Z.eqb_refl. reflexivity.
      * destruct (Z.eqb_spec (512 * 2 ^ (fb - 10)) 0); [lia|]. reflexivity.
    + assert (NF : nan_half E m = false) by (unfold nan_half; destruct (Z.eqb_spec E 31); [lia|reflexivity]).
      unfold wide_s. rewrite NF. pose proof (wide_value E m ltac:(lia) Hm) as V.
      destruct (ieee_code 5 10 fmt_h s (E * 1024 + m)) as (q & I & Q); [change ((2 ^ 5 - 1) * 2 ^ 10) with 31744; lia|].
      replace (fbits 5 10 s E m) with (E * 1024 + m + (if s then 2 ^ (5 + 10) else 0)) by (unfold fbits; destruct s; change (2 ^ 10) with 1024; lia). rewrite I.
      assert (ET : wide_e bias E m < 2 ^ eb - 1).
      { unfold wide_e. assert (PB : 2 ^ (8 - 1) <= 2 ^ (eb - 1)) by (apply Z.pow_le_mono_r; lia). change (2 ^ (8 - 1)) with 128 in PB.
        destruct (Z.eqb_spec E 0); [destruct (Z.eqb_spec m 0); [lia|destruct (log2_half m ltac:(lia)); lia]|]. destruct (Z.eqb_spec E 31); lia. }
      destruct (ieee_code eb fb FO s (wide_e bias E m * 2 ^ fb + wide_m E m * 2 ^ (fb - 10))) as (q' & I' & Q'); [nia|].
      replace (fbits eb fb s (wide_e bias E m) (wide_m E m * 2 ^ (fb - 10))) with (wide_e bias E m * 2 ^ fb + wide_m E m * 2 ^ (fb - 10) + (if s then 2 ^ (eb + fb) else 0)) by (unfold fbits; destruct s; lia).
      rewrite I'. cbn [same_ext]. rewrite Q, Q'. destruct s; cbn [sgq]; rewrite V; reflexivity.
  - intros NV. rewrite (fbits_sign eb fb FO E8 F11), half_sign by assumption. unfold wide_s. destruct (nan_half E m); [|reflexivity]. exfalso. apply NV, NN. reflexivity.
Qed.
End fmt.

Lemma h2s_ok h : 0 <= h < 2 ^ 16 -> exists x, h2s h = Ok x /\ same_number 8 23 h x.
Proof.
  intros H. destruct (half_fields h H) as (s & E & m & HE & Hm & ->). exists (wide_word 23 127 s E m). split; [apply h2s_word; assumption|].
  pose proof (wide_same 8 23 fmt_f ltac:(lia) ltac:(lia) s E m HE Hm) as W. unfold fbits in W. unfold wide_word.
  replace (sg31 (wide_s s E m)) with ((if wide_s s E m then 1 else 0) * 2 ^ (8 + 23)) by (destruct (wide_s s E m); reflexivity). exact W.
Qed.
Lemma h2d_ok h : 0 <= h < 2 ^ 16 -> exists x, h2d h = Ok x /\ 0 <= x < 2 ^ 32 /\ same_number 11 52 h (x * 2 ^ 32).
Proof.
  intros H. destruct (half_fields h H) as (s & E & m & HE & Hm & ->). exists (wide_word 20 1023 s E m). split; [apply h2d_word; assumption|].
  pose proof (wide_same 11 52 fmt_d ltac:(lia) ltac:(lia) s E m HE Hm) as W.
  assert (EQ : fbits 11 52 (wide_s s E m) (wide_e (2 ^ (11 - 1) - 1) E m) (wide_m E m * 2 ^ (52 - 10)) = wide_word 20 1023 s E m * 2 ^ 32).
  { unfold fbits, wide_word. change (2 ^ (11 - 1) - 1) with 1023. destruct (wide_s s E m); cbn [sg31]; change (2 ^ (52 - 10)) with (2 ^ (20 - 10) * 2 ^ 32); lia. }
  rewrite EQ in W. split; [|exact W]. destruct W as [W _]. change (2 ^ (11 + 52 + 1)) with (2 ^ 32 * 2 ^ 32) in W. lia.
Qed.

(** Narrowing the widened half. *)
Lemma mval_inj g k : 0 <= g -> 0 <= k -> (hv g == hv k)%Q -> g = k.
Proof.
  intros G K E. destruct (Z.lt_trichotomy g k) as [L|[L|L]]; [|assumption|].
  - pose proof (mval_lt 5 10 fmt_h g k G L). lra.
  - pose proof (mval_lt 5 10 fmt_h k g K L). lra.
Qed.
Lemma half_exact eb fb h x r : 0 <= h < 2 ^ 16 -> same_number eb fb h x -> half_of eb fb x r -> ieee_val 5 10 h <> NaNVal -> r = h.
Proof.
  intros H (_ & S & SG) ((R & HF) & SR) N. specialize (SG N). unfold same_ext in S.
  destruct (half_fields h H) as (sh & Eh & mh & HEh & Hmh & Xh). destruct (half_fields r R) as (sr & Er & mr & HEr & Hmr & Xr).
  destruct (ieee_val 5 10 h) as [z|si|] eqn:IH; [| |congruence].
  - destruct (ieee_val eb fb x) as [q|?|]; [|discriminate S|discriminate S]. specialize (SR ltac:(discriminate)).
    destruct (ieee_code_inv 5 10 fmt_h h z H IH) as (s1 & g1 & G1 & B1 & Q1). change ((2 ^ 5 - 1) * 2 ^ 10) with 31744 in G1.
    pose proof (mval_le 5 10 fmt_h 0 g1 ltac:(lia) ltac:(lia)) as P1. rewrite (mval_0 5 10 fmt_h) in P1.
    assert (AZ : (Qabs z == hv g1)%Q) by (rewrite Q1; apply sgq_abs; assumption).
    unfold half_away in HF. destruct (ieee_val 5 10 r) as [y|s|] eqn:IR; [| |contradiction].
    + destruct HF as [_ HF]. destruct (HF h z H IH) as [D _].
      assert (Z0 : (Qabs (z - q) == 0)%Q) by (rewrite S; assert (Z0 : (z - z == 0)%Q) by ring; rewrite Z0; reflexivity). rewrite Z0 in D.
      assert (YQ : (y == z)%Q).
      { pose proof (Qabs_nonneg (y - q)). pose proof (Qle_Qabs (y - q)) as A. pose proof (Qle_Qabs (- (y - q))) as B. rewrite Qabs_opp in B. lra. }
      destruct (ieee_code_inv 5 10 fmt_h r y R IR) as (s2 & g2 & G2 & B2 & Q2). change ((2 ^ 5 - 1) * 2 ^ 10) with 31744 in G2.
      pose proof (mval_le 5 10 fmt_h 0 g2 ltac:(lia) ltac:(lia)) as P2. rewrite (mval_0 5 10 fmt_h) in P2.
      assert (AY : (Qabs y == hv g2)%Q) by (rewrite Q2; apply sgq_abs; assumption).
      assert (GG : g2 = g1) by (apply mval_inj; try lia; rewrite <- AY, <- AZ, YQ; reflexivity).
      subst g2. rewrite B1, B2 in *. f_equal. change (2 ^ (5 + 10)) with (2 ^ 15) in *.
      pose proof (sg15_div g1 s1 ltac:(lia)) as D1. pose proof (sg15_div g1 s2 ltac:(lia)) as D2. unfold sg15 in D1, D2.
      rewrite D1 in SG. rewrite D2 in SR. destruct s1, s2; try reflexivity; lia.
    + destruct HF as [B _]. exfalso. assert (A : (Qabs q == Qabs z)%Q) by (rewrite S; reflexivity).
      pose proof (mval_le 5 10 fmt_h g1 31743 ltac:(lia) ltac:(lia)) as L. rewrite hv_last in L. lra.
  - destruct (ieee_val eb fb x) as [q|sx|]; try discriminate S. injection S as ->. clear SR.
    assert (U : forall b s', 0 <= b < 2 ^ 16 -> ieee_val 5 10 b = InfVal s' -> b = 31744 + sg15 s').
    { intros b s' B I. destruct (half_fields b B) as (sb & Eb & mb & HEb & Hmb & Xb). rewrite Xb, half_fbits in I.
      destruct (Z.eq_dec Eb 31) as [->|NE].
      - change 31 with (2 ^ 5 - 1) in I. rewrite (ieee_top 5 10 sb mb fmt_h) in I by (change (2 ^ 10) with 1024; assumption).
        destruct (Z.eqb_spec mb 0) as [M0|M0]; [|discriminate I]. injection I as ->. subst mb. rewrite Xb. lia.
      - destruct (ieee_code 5 10 fmt_h sb (Eb * 1024 + mb)) as (q & I' & _); [change ((2 ^ 5 - 1) * 2 ^ 10) with 31744; lia|].
        replace (fbits 5 10 sb Eb mb) with (Eb * 1024 + mb + (if sb then 2 ^ (5 + 10) else 0)) in I by (unfold fbits; destruct sb; change (2 ^ 10) with 1024; lia).
        rewrite I' in I. discriminate I. }
    rewrite (U h si H IH), (U r si R HF). reflexivity.
Qed.
Lemma half_nan eb fb h x r : same_number eb fb h x -> half_of eb fb x r -> ieee_val 5 10 h = NaNVal -> ieee_val 5 10 r = NaNVal.
Proof.
  intros (_ & S & _) ((_ & HF) & _) N. rewrite N in S. unfold same_ext in S.
  destruct (ieee_val eb fb x); try discriminate S. exact HF.
Qed.
