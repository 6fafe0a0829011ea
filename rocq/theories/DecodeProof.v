(** Decoding and encoding: the model of unpack/pack in terms of logarithmic coordinates. *)
From Coq Require Import ZArith QArith Lia Lqa Bool List.
From Verif Require Import Res CInt Bits Traits Unpacked Cfg Posit Spec QPow Core SpecLemmas Arith.
Open Scope Z_scope.

Lemma vc_bounds c : valid_cfg c ->
  3 <= cN c /\ cN c <= cH c /\ 0 <= ces c <= cN c - 3 /\ ces c <= 30 /\
  8 <= cH c <= 64 /\ 8 <= cF c <= 64.
Proof.
  intros [H F N e0 e e3 _]. pose proof (is_width_pos _ H). pose proof (is_width_pos _ F). lia.
Qed.

Ltac vcb V :=
  let H1 := fresh "BN" in let H2 := fresh "BH" in let H3 := fresh "Bes" in
  let H4 := fresh "Be30" in let H5 := fresh "BHH" in let H6 := fresh "BFF" in
  destruct (vc_bounds _ V) as [H1 [H2 [H3 [H4 [H5 H6]]]]].

(** Constants of PositTrait. *)
Lemma TOP_val c : valid_cfg c -> TOP c = - 2 ^ (cN c - 1).
Proof.
  intros V. vcb V. unfold TOP, tS, tU, cast. cbn [isg iw sint uint]. unfold wrapu.
  pow_pos 2 (cH c). pow_pos 2 (cN c - 1).
  assert (E : (-1) mod 2 ^ cH c = 2 ^ cH c - 1).
  { symmetry. apply (Z.mod_unique _ _ (-1)); lia. }
  rewrite E.
  rewrite (wraps_mod_eq (cH c) _ (- 2 ^ (cN c - 1))) by
    (try lia; replace ((2 ^ cH c - 1) * 2 ^ (cN c - 1)) with (- 2 ^ (cN c - 1) + 2 ^ (cN c - 1) * 2 ^ cH c) by lia;
     apply Z.mod_add; lia).
  apply wraps_small; [lia|]. pose proof (pow2_mono (cN c - 1) (cH c - 1)). lia.
Qed.
Lemma TOPRIGHT_val c : valid_cfg c -> TOPRIGHT c = 2 ^ (cN c - 1) - 1.
Proof.
  intros V. vcb V. unfold TOPRIGHT, tS. pow_pos 2 (cN c - 1).
  pose proof (pow2_mono (cN c - 1) (cH c - 1)). apply cast_s_small; lia.
Qed.
Lemma TOPLEFT_val c : valid_cfg c -> TOPLEFT c = - 2 ^ (cN c - 1) + 1.
Proof.
  intros V. unfold TOPLEFT. change (cast (tS c) (cast (tU c) (-1) * 2 ^ (cN c - 1))) with (TOP c).
  rewrite TOP_val by assumption. vcb V. unfold tS.
  pose proof (pow2_mono (cN c - 1) (cH c - 1)).
  assert (2 ^ 1 <= 2 ^ (cN c - 1)) by (apply pow2_mono; lia).
  apply cast_s_small; lia.
Qed.
Lemma P_NAN_val c : valid_cfg c -> P_NAN c = - 2 ^ (cN c - 1).
Proof. apply TOP_val. Qed.
Lemma P_PINF_val c : valid_cfg c ->
  P_PINF c = match csp c with WithNanInf => 2 ^ (cN c - 1) - 1 | _ => - 2 ^ (cN c - 1) end.
Proof.
  intros V. unfold P_PINF, is_naninf.
  destruct (csp c); cbn [spec_eqb]; auto using TOP_val, TOPRIGHT_val.
Qed.
Lemma P_NINF_val c : valid_cfg c ->
  P_NINF c = match csp c with WithNanInf => - 2 ^ (cN c - 1) + 1 | _ => - 2 ^ (cN c - 1) end.
Proof.
  intros V. unfold P_NINF, is_naninf.
  destruct (csp c); cbn [spec_eqb]; auto using TOP_val, TOPLEFT_val.
Qed.
Lemma P_MAXPOS_val c : valid_cfg c -> P_MAXPOS c = maxreal c.
Proof.
  intros V. unfold P_MAXPOS. rewrite TOPRIGHT_val by assumption. vcb V.
  pose proof (pow2_mono (cN c - 1) (cH c - 1) ltac:(lia)).
  assert (2 ^ 2 <= 2 ^ (cN c - 1)) by (apply pow2_mono; lia).
  unfold tS, maxreal, is_naninf.
  destruct (csp c); cbn [spec_eqb]; rewrite cast_s_small; lia.
Qed.
Lemma P_MINNEG_val c : valid_cfg c -> P_MINNEG c = - maxreal c.
Proof.
  intros V. unfold P_MINNEG. rewrite TOPLEFT_val by assumption. vcb V.
  pose proof (pow2_mono (cN c - 1) (cH c - 1) ltac:(lia)).
  assert (2 ^ 2 <= 2 ^ (cN c - 1)) by (apply pow2_mono; lia).
  unfold tS, maxreal, is_naninf.
  destruct (csp c); cbn [spec_eqb]; rewrite cast_s_small; lia.
Qed.
Lemma P_ONE_val c : valid_cfg c -> P_ONE c = 2 ^ (cN c - 2).
Proof.
  intros V. vcb V. unfold P_ONE, INVERTBIT, tS. pow_pos 2 (cN c - 2).
  apply cast_s_small; [lia|]. pose proof (pow2_mono (cN c - 1) (cH c - 1) ltac:(lia)).
  assert (2 ^ (cN c - 1) = 2 * 2 ^ (cN c - 2))
    by (replace (cN c - 1) with ((cN c - 2) + 1) by lia; apply pow2_S; lia).
  lia.
Qed.

(** Classification of canonical patterns. *)
Inductive kind (c : cfg) (v : Z) : Prop :=
| KReal : real c v -> isNaN c v = false -> isinfinity c v = false -> kind c v
| KNan : is_nan c v -> isNaN c v = true -> isinfinity c v = false -> kind c v
| KInf : is_inf c v -> isNaN c v = false -> isinfinity c v = true -> kind c v.

Lemma isNaN_spec c v : valid_cfg c -> isNaN c v = true <-> is_nan c v.
Proof.
  intros V. unfold isNaN, is_nan, withnan. rewrite P_NAN_val by assumption.
  rewrite andb_true_iff, Z.eqb_eq, negb_true_iff.
  destruct (csp c); cbn [spec_eqb]; intuition congruence.
Qed.
Lemma isinf_spec c v : valid_cfg c -> isinfinity c v = true <-> is_inf c v.
Proof.
  intros V. unfold isinfinity, is_inf, is_pinf, is_ninf, is_uinf.
  rewrite P_PINF_val, P_NINF_val by assumption.
  rewrite andb_true_iff, orb_true_iff, !Z.eqb_eq, negb_true_iff.
  destruct (csp c); cbn [spec_eqb]; intuition congruence.
Qed.

Lemma kind_of c v : valid_cfg c -> pattern c v -> kind c v.
Proof.
  intros V P. vcb V. unfold pattern in P.
  assert (2 ^ 2 <= 2 ^ (cN c - 1)) by (apply pow2_mono; lia).
  destruct (isNaN c v) eqn:EN.
  - pose proof EN as E. apply isNaN_spec in E; [|assumption]. apply KNan; auto.
    destruct (isinfinity c v) eqn:EI; [|reflexivity].
    apply isinf_spec in EI; [|assumption]. unfold is_nan, is_inf, is_pinf, is_ninf, is_uinf in *.
    destruct E as [E1 E2]. destruct EI as [[]|[[]|[]]]; try congruence; lia.
  - destruct (isinfinity c v) eqn:EI.
    + apply KInf; auto. apply isinf_spec; auto.
    + apply KReal; auto.
      assert (~ is_nan c v) by (rewrite <- isNaN_spec by assumption; congruence).
      assert (~ is_inf c v) by (rewrite <- isinf_spec by assumption; congruence).
      unfold real, maxreal, is_nan, is_inf, is_pinf, is_ninf, is_uinf in *.
      destruct (csp c).
      * assert (v <> - 2 ^ (cN c - 1)) by (intro; apply H0; split; [congruence|assumption]). lia.
      * assert (v <> - 2 ^ (cN c - 1)) by (intro; apply H1; auto). lia.
      * assert (v <> - 2 ^ (cN c - 1)) by (intro; apply H0; split; [congruence|assumption]).
        assert (v <> - 2 ^ (cN c - 1) + 1) by (intro; apply H1; auto).
        assert (v <> 2 ^ (cN c - 1) - 1) by (intro; apply H1; auto). lia.
Qed.

Lemma real_not_special c v : valid_cfg c -> real c v -> isNaN c v = false /\ isinfinity c v = false.
Proof.
  intros V R. vcb V. unfold real, maxreal in R.
  assert (2 ^ 2 <= 2 ^ (cN c - 1)) by (apply pow2_mono; lia).
  split.
  - destruct (isNaN c v) eqn:E; [|reflexivity]. apply isNaN_spec in E; [|assumption].
    unfold is_nan in E. destruct (csp c); lia.
  - destruct (isinfinity c v) eqn:E; [|reflexivity]. apply isinf_spec in E; [|assumption].
    unfold is_inf, is_pinf, is_ninf, is_uinf in E.
    destruct (csp c); destruct E as [[]|[[]|[]]]; try congruence; lia.
Qed.

(** decode_posit_rs on the left aligned magnitude of a posit. *)
Lemma decode_spec c p : valid_cfg c -> 1 <= p < 2 ^ (cN c - 1) ->
  decode_posit_rs c (cast (tS c) (p * 2 ^ (cH c - cN c + 1))) =
  Ok (reg (cN c) p, Z.min (cN c - 1) (sft (reg (cN c) p) + 2)).
Proof.
  intros V P. vcb V. pose proof (vc_H _ V) as WH.
  set (s := cH c - cN c + 1). set (X := p * 2 ^ s).
  pow_pos 2 s.
  assert (Es : 2 ^ (cN c - 1) * 2 ^ s = 2 ^ cH c)
    by (rewrite <- Z.pow_add_r by lia; f_equal; lia).
  assert (HX : 0 < X < 2 ^ cH c) by (unfold X; nia).
  assert (EH : 2 ^ cH c = 2 * 2 ^ (cH c - 1))
    by (replace (cH c) with ((cH c - 1) + 1) at 1 by lia; apply pow2_S; lia).
  assert (EN : 2 ^ (cN c - 1) = 2 * 2 ^ (cN c - 2))
    by (replace (cN c - 1) with ((cN c - 2) + 1) by lia; apply pow2_S; lia).
  assert (E1 : 2 ^ (cN c - 2) * 2 ^ s = 2 ^ (cH c - 1))
    by (rewrite <- Z.pow_add_r by lia; f_equal; lia).
  assert (Ev : X = 2 * (p * 2 ^ (s - 1))).
  { unfold X. replace s with ((s - 1) + 1) at 1 by lia. rewrite pow2_S by lia. lia. }
  assert (CT : cast (tU c) (cast (tS c) X) = X).
  { unfold tU, tS. rewrite cast_us by lia. apply cast_u_small. lia. }
  set (q := cast (tS c) X) in *.
  assert (Hq : q = if X <? 2 ^ (cH c - 1) then X else X - 2 ^ cH c).
  { unfold q, tS, cast, wraps. cbn [isg iw sint].
    destruct (Z.ltb_spec X (2 ^ (cH c - 1))).
    - rewrite Z.mod_small; lia.
    - replace ((X + 2 ^ (cH c - 1)) mod 2 ^ cH c) with (X - 2 ^ (cH c - 1)); [lia|].
      apply (Z.mod_unique _ _ 1); lia. }
  assert (TB : negb (cand q (HOLDER_MSB c) =? 0) = (2 ^ (cH c - 1) <=? X)).
  { unfold cand, HOLDER_MSB. rewrite land_pow2_nz by lia. rewrite negb_involutive.
    rewrite <- (testbit_top X (cH c - 1)) by (replace (cH c - 1 + 1) with (cH c) by lia; lia).
    rewrite <- (Z.mod_pow2_bits_low q (cH c)) by lia.
    change (q mod 2 ^ cH c) with (cast (tU c) q). rewrite CT. reflexivity. }
  unfold decode_posit_rs. rewrite TB. clear TB.
  unfold MAXREGIME_BITS.
  destruct (Z.leb_spec (2 ^ (cH c - 1)) X) as [L|L].
  - (* invert bit set *)
    assert (Lp : 2 ^ (cN c - 2) <= p) by (unfold X in L; nia).
    assert (NP : cnot (prom (tS c)) q = 2 ^ cH c - 1 - X).
    { unfold cnot, tS. rewrite prom_sint by assumption. cbn [isg sint]. unfold Z.lnot.
      destruct (Z.ltb_spec X (2 ^ (cH c - 1))); lia. }
    rewrite NP. destruct (Z.eqb_spec (2 ^ cH c - 1 - X) 0) as [Z0|Z0]; [lia|].
    unfold tU. rewrite cast_u_small by lia.
    rewrite clz_spec by (assumption || lia). cbn [bind].
    assert (E : cH c - 1 - Z.log2 (2 ^ cH c - 1 - X) = reg (cN c) p + 1).
    { unfold reg. destruct (Z.ltb_spec p (2 ^ (cN c - 2))); [lia|].
      destruct (Z.eqb_spec p (2 ^ (cN c - 1) - 1)) as [E'|E'].
      - replace (2 ^ cH c - 1 - X) with (2 ^ (s - 1) + (2 ^ (s - 1) - 1)).
        + rewrite (Z.log2_unique (2 ^ (s - 1) + (2 ^ (s - 1) - 1)) (s - 1)); [lia|lia|].
          replace (Z.succ (s - 1)) with ((s - 1) + 1) by lia. rewrite pow2_S by lia.
          pow_pos 2 (s - 1). lia.
        + assert (2 ^ s = 2 * 2 ^ (s - 1))
            by (replace s with ((s - 1) + 1) at 1 by lia; apply pow2_S; lia).
          assert (X = 2 ^ cH c - 2 ^ s) by (unfold X; rewrite E', <- Es; ring).
          lia.
      - set (w := 2 ^ (cN c - 1) - 1 - p).
        assert (W : 1 <= w) by lia.
        replace (2 ^ cH c - 1 - X) with (w * 2 ^ s + (2 ^ s - 1)) by (unfold w, X; nia).
        pose proof (Z.log2_spec w ltac:(lia)) as S. pose proof (Z.log2_nonneg w).
        rewrite (Z.log2_unique (w * 2 ^ s + (2 ^ s - 1)) (Z.log2 w + s)); [lia|lia|].
        replace (Z.succ (Z.log2 w + s)) with (Z.succ (Z.log2 w) + s) by lia.
        rewrite !Z.pow_add_r by lia. nia. }
    rewrite E.
    assert (Rg : 0 <= reg (cN c) p).
    { unfold reg. destruct (Z.ltb_spec p (2 ^ (cN c - 2))); [lia|].
      destruct (Z.eqb_spec p (2 ^ (cN c - 1) - 1)); [lia|].
      assert (Z.log2 (2 ^ (cN c - 1) - 1 - p) < cN c - 2) by (apply Z.log2_lt_pow2; lia). lia. }
    unfold sft. destruct (Z.leb_spec 0 (reg (cN c) p)); [|lia].
    f_equal. f_equal; [lia|]. destruct (Z.ltb_spec (cN c - 1) (reg (cN c) p + 1 + 1)); lia.
  - assert (Lp : p < 2 ^ (cN c - 2)) by (unfold X in L; nia).
    destruct (Z.ltb_spec X (2 ^ (cH c - 1))); [|lia].
    rewrite Hq. destruct (Z.eqb_spec X 0); [lia|].
    unfold tU. rewrite cast_u_small by lia.
    rewrite clz_spec by (assumption || lia). cbn [bind].
    assert (E : cH c - 1 - Z.log2 X = - reg (cN c) p).
    { unfold reg. destruct (Z.ltb_spec p (2 ^ (cN c - 2))); [|lia].
      unfold X. rewrite Z.log2_mul_pow2 by lia. unfold s. lia. }
    rewrite E.
    assert (Rg : reg (cN c) p < 0).
    { unfold reg. destruct (Z.ltb_spec p (2 ^ (cN c - 2))); [|lia].
      assert (Z.log2 p < cN c - 2) by (apply Z.log2_lt_pow2; lia). lia. }
    unfold sft. destruct (Z.leb_spec 0 (reg (cN c) p)); [lia|].
    f_equal. f_equal; [lia|]. destruct (Z.ltb_spec (cN c - 1) (- reg (cN c) p + 1)); lia.
Qed.

Lemma reg_inreg c p : valid_cfg c -> 1 <= p < 2 ^ (cN c - 1) -> inreg (cN c) (reg (cN c) p).
Proof. intros V P. vcb V. apply (reg_spec (cN c) ltac:(lia) p P). Qed.

(** unpack_low on a nonzero real posit. *)
Lemma unpack_low_spec c v : valid_cfg c -> real c v -> v <> 0 ->
  exists e f,
    unpack_low c v = Ok (UL Regular (v <? 0) (reg (cN c) (Z.abs v)) e f) /\
    0 <= e < 2 ^ ces c /\ 0 <= f < 2 ^ cH c /\
    (reg (cN c) (Z.abs v) * 2 ^ ces c + e) * 2 ^ cH c + f =
      pdec (cN c) (Z.abs v) * 2 ^ (cH c - gran c).
Proof.
  intros V R NZ. vcb V. pose proof (vc_H _ V) as WH.
  destruct (real_not_special c v V R) as [RN RI].
  pose proof (real_bounds c BN Bes v R) as RB.
  unfold unpack_low. rewrite RI, RN. destruct (Z.eqb_spec v 0); [contradiction|].
  set (p := Z.abs v). assert (P : 1 <= p < 2 ^ (cN c - 1)) by lia.
  assert (EN : 2 ^ cN c = 2 * 2 ^ (cN c - 1))
    by (replace (cN c) with ((cN c - 1) + 1) at 1 by lia; apply pow2_S; lia).
  pose proof (pow2_mono (cN c - 1) (cH c - 1) ltac:(lia)) as PM.
  assert (SG : negb (cand v (SIGNBIT c) =? 0) = (v <? 0)).
  { unfold cand, SIGNBIT. rewrite land_pow2_nz, negb_involutive by lia.
    destruct (Z.ltb_spec v 0).
    - rewrite testbit_div by lia.
      assert (E : v / 2 ^ (cN c - 1) = -1)
        by (symmetry; apply (Z.div_unique _ _ _ (v + 2 ^ (cN c - 1))); lia).
      rewrite E. reflexivity.
    - rewrite testbit_top by (try lia; replace (cN c - 1 + 1) with (cN c) by lia; lia).
      apply Z.leb_gt. lia. }
  rewrite SG.
  assert (PA : (if v <? 0 then let! r := cneg (prom (tS c)) v in Ok (cast (tS c) r) else Ok v) = Ok p).
  { destruct (Z.ltb_spec v 0).
    - unfold cneg, tS. pose proof (pw_ge_w _ WH).
      rewrite arith_ps by (assumption || lia). cbn [bind].
      rewrite cast_s_small by lia. f_equal. lia.
    - f_equal. lia. }
  rewrite PA. cbn [bind]. clear PA SG.
  unfold EXTRA_BITS. set (s := cH c - cN c + 1).
  assert (Es : 2 ^ (cN c - 1) * 2 ^ s = 2 ^ cH c)
    by (rewrite <- Z.pow_add_r by lia; f_equal; lia).
  pow_pos 2 s.
  destruct (cshl_s (cH c) p s) as [r1 [E1 E2]]; try assumption; try (unfold pw; lia); [nia|].
  unfold tS, tU in *. rewrite E1. cbn [bind]. rewrite E2. clear E1 E2 r1.
  pose proof (decode_spec c p V P) as D. unfold tS in D. fold s in D. rewrite D. clear D.
  cbn [bind fst snd].
  set (k := reg (cN c) p). set (rs := Z.min (cN c - 1) (sft k + 2)).
  destruct (reg_spec (cN c) BN p P) as [Rk Bk]. fold k in Rk, Bk.
  destruct (sft_bound (cN c) BN k Rk) as [S0 [S1 S2]].
  set (r := p - base (cN c) k).
  set (G := gran c). assert (HG : G = cN c - 3 - ces c) by reflexivity.
  (* left aligned remainder *)
  set (sr := cH c - (cN c - 1 - rs)).
  assert (Hrs : 0 <= cN c - 1 - rs) by lia.
  assert (HR : 0 <= r < 2 ^ (cN c - 1 - rs) /\ (p * 2 ^ s * 2 ^ rs) mod 2 ^ cH c = r * 2 ^ sr).
  { assert (EE : 2 ^ s * 2 ^ rs = 2 ^ sr) by (rewrite <- Z.pow_add_r by lia; f_equal; lia).
    rewrite <- Z.mul_assoc, EE.
    assert (EH : 2 ^ (cN c - 1 - rs) * 2 ^ sr = 2 ^ cH c)
      by (rewrite <- Z.pow_add_r by lia; f_equal; lia).
    assert (HB : exists b, base (cN c) k = b * 2 ^ (cN c - 1 - rs) /\ 0 <= r < 2 ^ (cN c - 1 - rs)).
    { unfold base, cnt in *. destruct (Z.eqb_spec k (cN c - 2)) as [K|K].
      - assert (cN c - 1 - rs = 0) by (unfold rs, sft; destruct (Z.leb_spec 0 k); lia).
        rewrite H0. exists (base (cN c) k). split; [unfold base; lia|]. unfold r, base. lia.
      - specialize (S1 K). assert (RS : cN c - 1 - rs = cN c - 3 - sft k) by lia.
        rewrite RS. unfold r, base.
        destruct (Z.leb_spec 0 k) as [K0|K0].
        + exists (2 ^ (k + 2) - 2). split; [|lia]. unfold inreg in Rk.
          unfold sft. destruct (Z.leb_spec 0 k); [|lia].
          rewrite Z.mul_sub_distr_r, <- Z.pow_add_r by lia.
          rewrite <- (pow2_S (cN c - 3 - k)) by lia.
          replace (k + 2 + (cN c - 3 - k)) with (cN c - 1) by lia.
          replace (cN c - 3 - k + 1) with (cN c - 2 - k) by lia. reflexivity.
        + exists 1. split; [|lia]. rewrite Z.mul_1_l. f_equal. unfold sft.
          destruct (Z.leb_spec 0 k); lia. }
    destruct HB as [b [B1 B2]]. split; [assumption|].
    symmetry. apply (Z.mod_unique _ _ b); [nia|].
    replace p with (base (cN c) k + r) by (unfold r; lia). rewrite B1. rewrite <- EH. ring. }
  destruct HR as [HR HM].
  assert (EH : 2 ^ (cN c - 1 - rs) * 2 ^ sr = 2 ^ cH c)
      by (rewrite <- Z.pow_add_r by lia; f_equal; lia).
  pow_pos 2 sr.
  assert (X2 : 0 <= r * 2 ^ sr < 2 ^ cH c) by nia.
  destruct (cshl_u (cH c) (p * 2 ^ s) rs) as [r2 [E1 E2]]; try assumption; try (unfold pw; lia); [nia|].
  rewrite E1. cbn [bind]. rewrite E2, HM. clear E1 E2 r2.
  set (X := r * 2 ^ sr) in *.
  pow_pos 2 (cH c - ces c). pow_pos 2 (ces c).
  assert (EX : 2 ^ (cH c - ces c) * 2 ^ ces c = 2 ^ cH c)
    by (rewrite <- Z.pow_add_r by lia; f_equal; lia).
  assert (HE : bitset_leftmost_get_const (cH c) (ces c) X = Ok (X / 2 ^ (cH c - ces c))).
  { unfold bitset_leftmost_get_const. destruct (Z.eqb_spec (ces c) 0) as [E0|E0].
    - rewrite E0, Z.sub_0_r. rewrite Z.div_small by lia. reflexivity.
    - rewrite bitset_get_spec by (try assumption; unfold pw; lia). f_equal.
      apply Z.mod_small. split; [apply Z.div_pos; lia|apply Z.div_lt_upper_bound; lia]. }
  rewrite HE. cbn [bind]. clear HE.
  destruct (cshl_u (cH c) X (ces c)) as [r3 [E1 E2]]; try assumption; try (unfold pw; lia).
  rewrite E1. cbn [bind]. rewrite E2. clear E1 E2 r3.
  set (e := X / 2 ^ (cH c - ces c)). set (f := (X * 2 ^ ces c) mod 2 ^ cH c).
  assert (He : 0 <= e < 2 ^ ces c).
  { unfold e. split; [apply Z.div_pos; lia|apply Z.div_lt_upper_bound; lia]. }
  assert (Hf : 0 <= f < 2 ^ cH c) by (apply Z.mod_pos_bound; lia).
  exists e, f. unfold ul_mk. fold p k.
  assert (Ck : cast (tS c) k = k).
  { unfold tS. apply cast_s_small; [lia|]. unfold inreg in Rk.
    pose proof (Z.pow_gt_lin_r 2 (cH c - 1) ltac:(lia) ltac:(lia)). lia. }
  rewrite Ck.
  pose proof (pow2_mono (ces c) (cH c) ltac:(lia)).
  unfold tU. rewrite !cast_u_small by lia.
  split; [reflexivity|]. split; [assumption|]. split; [assumption|].
  assert (DM : e * 2 ^ cH c + f = X * 2 ^ ces c).
  { unfold e, f. rewrite <- EX.
    rewrite (Z.mul_mod_distr_r X (2 ^ (cH c - ces c)) (2 ^ ces c)) by lia.
    pose proof (Z.div_mod X (2 ^ (cH c - ces c)) ltac:(lia)). nia. }
  rewrite Z.mul_add_distr_r, <- Z.add_assoc, DM.
  unfold pdec. fold k r. unfold X.
  rewrite Z.mul_add_distr_r.
  f_equal.
  - rewrite <- !Z.mul_assoc, <- !Z.pow_add_r by lia. f_equal. f_equal. lia.
  - destruct (Z.eq_dec k (cN c - 2)) as [K|K].
    + assert (r = 0) by (unfold r, cnt in *; destruct (Z.eqb_spec k (cN c - 2)); lia).
      rewrite H4. lia.
    + specialize (S1 K). rewrite <- !Z.mul_assoc, <- !Z.pow_add_r by lia. f_equal. f_equal. lia.
Qed.
