(** Signs, round trip and operators of anyfloat_emu. *)
From Coq Require Import ZArith QArith Qabs Lia Lqa List Bool Setoid.
From Verif Require Import Res CInt Bits Traits Unpacked Cfg Posit Spec SpecFloat SpecAny FloatOps PositF AnyFloat QPow Core SpecLemmas Arith DecodeProof EncodeProof
  UOps UAdd Ops OpsAdd OpsUnary OpsUnary2 Specials Room Laws Configs Final1 Final2 Final3 Conv1 Conv2 Conv3 Conv4 Conv5 TabProof5 FloatProof FloatProof2 PositFProof PositFProof2 PositFProof3 AnyProof AnyProof2.
Open Scope Z_scope.

Section sign.
Context (eb fb : Z).
Hypothesis FO : fmt_ok eb fb.
Notation sb := (2 ^ (eb + fb)).

Lemma sbit : t_signbit (af_tr eb fb) = sb /\ 0 < sb /\ 2 ^ (eb + fb + 1) = 2 * sb.
Proof using FO.
  pose proof FO as FO1. destruct FO1 as [W [E1 E2] Hf]. split.
  - unfold af_tr. apply (trait_max eb fb true FO).
  - split; [apply Z.pow_pos_nonneg; lia|]. rewrite Z.pow_add_r by lia. ring.
Qed.
Lemma flip v (s : bool) : 0 <= v < sb -> Z.lxor (v + (if s then sb else 0)) sb = v + (if s then 0 else sb).
Proof using FO.
  intros B. destruct FO as [W [E1 E2] Hf].
  assert (L0 : Z.land v sb = 0) by (apply Z.bits_inj'; intros n Hn; rewrite Z.land_spec, Z.bits_0, Z.pow2_bits_eqb by lia; destruct (Z.eqb_spec (eb + fb) n) as [<-|]; [|apply andb_false_r]; rewrite andb_true_r; apply Z.bits_above_log2; [lia|]; destruct (Z.eq_dec v 0) as [->|]; [cbn; lia|apply Z.log2_lt_pow2; lia]).
  assert (LX : v + sb = Z.lxor v sb) by (rewrite Z.add_nocarry_lxor; [reflexivity|exact L0]).
  destruct s.
  - rewrite LX, Z.lxor_assoc, Z.lxor_nilpotent, Z.lxor_0_r. lia.
  - rewrite Z.add_0_r. symmetry. exact LX.
Qed.
Lemma split_sign v : 0 <= v < 2 ^ (eb + fb + 1) -> exists m (s : bool), 0 <= m < sb /\ v = m + (if s then sb else 0).
Proof using FO.
  intros B. destruct sbit as (_ & P & D). destruct (Z_lt_le_dec v sb); [exists v, false|exists (v - sb), true]; lia.
Qed.
Lemma ieee_signed m (s : bool) : 0 <= m < sb ->
  same_ext (ieee_val eb fb (m + (if s then sb else 0))) (if s then x_opp (ieee_val eb fb m) else ieee_val eb fb m) /\
  match ieee_val eb fb m with FinVal q => (0 <= q)%Q | InfVal t => t = false | NaNVal => True end.
Proof using FO.
  intros B. destruct sbit as (_ & P & D). pose proof FO as FO1. destruct FO1 as [W [E1 E2] Hf]. pow_pos 2 fb. pow_pos 2 eb.
  assert (SB : sb = 2 ^ eb * 2 ^ fb) by (apply Z.pow_add_r; lia).
  assert (M : (m + (if s then sb else 0)) mod 2 ^ fb = m mod 2 ^ fb) by (destruct s; [rewrite SB; apply Z.mod_add; lia|f_equal; lia]).
  assert (Ee : ((m + (if s then sb else 0)) / 2 ^ fb) mod 2 ^ eb = (m / 2 ^ fb) mod 2 ^ eb).
  { destruct s; [rewrite SB, Z.div_add by lia|f_equal; f_equal; lia]. rewrite <- (Z.mul_1_l (2 ^ eb)) at 1. apply Z.mod_add. lia. }
  assert (S0 : (m / 2 ^ (fb + eb)) mod 2 = 0) by (rewrite (Z.add_comm fb eb), Z.div_small by lia; reflexivity).
  assert (Ss : ((m + (if s then sb else 0)) / 2 ^ (fb + eb)) mod 2 = if s then 1 else 0).
  { rewrite (Z.add_comm fb eb). destruct s; [|rewrite Z.add_0_r, Z.div_small by lia; reflexivity].
    replace (m + sb) with (m + 1 * sb) by ring. rewrite Z.div_add, Z.div_small by lia. reflexivity. }
  pose proof (Z.mod_pos_bound m (2 ^ fb) ltac:(lia)) as MB.
  unfold ieee_val. rewrite M, Ee, Ss, S0. cbn [Z.eqb]. set (e := (m / 2 ^ fb) mod 2 ^ eb). set (f := m mod 2 ^ fb) in *.
  assert (NN : forall a j, 0 <= a -> (0 <= 1 * (inject_Z a * pow2 j))%Q).
  { intros a j A. rewrite Qmult_1_l. apply Qmult_le_0_compat; [change 0%Q with (inject_Z 0); rewrite <- Zle_Qle; exact A|apply Qlt_le_weak, pow2_pos]. }
  destruct (e =? 2 ^ eb - 1); [destruct (f =? 0)|destruct (e =? 0)]; destruct s; cbn [Z.eqb negb x_opp same_ext];
    (split; [try reflexivity; ring|try reflexivity; try exact I; apply NN; lia]).
Qed.

Lemma neg_val v : 0 <= v < 2 ^ (eb + fb + 1) ->
  0 <= af_neg eb fb v < 2 ^ (eb + fb + 1) /\ same_ext (ieee_val eb fb (af_neg eb fb v)) (x_opp (ieee_val eb fb v)) /\ af_neg eb fb (af_neg eb fb v) = v.
Proof using FO.
  intros B. destruct (split_sign v B) as (m & s & Bm & ->). destruct sbit as (SG & P & D).
  assert (E : forall s : bool, af_neg eb fb (m + (if s then sb else 0)) = m + (if negb s then sb else 0)) by (intros t; unfold af_neg; rewrite SG, flip by exact Bm; destruct t; reflexivity).
  rewrite !E, negb_involutive. split; [destruct s; cbn [negb]; lia|]. split.
  - destruct (ieee_signed m s Bm) as [A _]. destruct (ieee_signed m (negb s) Bm) as [A' _].
    destruct s; cbn [negb] in *.
    + destruct (ieee_val eb fb m) as [q|t|] eqn:IV, (ieee_val eb fb (m + sb)) as [q'|t'|]; cbn [x_opp same_ext] in *; try discriminate;
        destruct (ieee_val eb fb (m + 0)) as [q''|t''|]; cbn [same_ext x_opp] in *; try discriminate; try reflexivity.
      * rewrite A', A. ring.
      * injection A' as ->. injection A as ->. rewrite negb_involutive. reflexivity.
    + destruct (ieee_val eb fb m) as [q|t|] eqn:IV, (ieee_val eb fb (m + 0)) as [q'|t'|]; cbn [x_opp same_ext] in *; try discriminate;
        destruct (ieee_val eb fb (m + sb)) as [q''|t''|]; cbn [same_ext x_opp] in *; try discriminate; try reflexivity.
      * rewrite A', A. reflexivity.
      * injection A' as ->. injection A as ->. reflexivity.
  - reflexivity.
Qed.
Lemma abs_val v : 0 <= v < 2 ^ (eb + fb + 1) ->
  0 <= af_abs eb fb v < 2 ^ (eb + fb) /\ same_ext (ieee_val eb fb (af_abs eb fb v)) (x_abs (ieee_val eb fb v)).
Proof using FO.
  intros B. destruct (split_sign v B) as (m & s & Bm & ->). destruct sbit as (SG & P & D). pose proof FO as FO1. destruct FO1 as [W [E1 E2] Hf].
  assert (E : af_abs eb fb (m + (if s then sb else 0)) = m).
  { unfold af_abs. rewrite SG. apply Z.bits_inj'. intros n Hn. rewrite Z.land_spec, Z.lnot_spec, Z.pow2_bits_eqb by lia.
    assert (MS : m = (m + (if s then sb else 0)) mod sb) by (destruct s; [replace (m + sb) with (m + 1 * sb) by ring; rewrite Z.mod_add, Z.mod_small; lia|rewrite Z.add_0_r, Z.mod_small; lia]).
    destruct (Z.eqb_spec (eb + fb) n) as [<-|N]; cbn [negb].
    - rewrite andb_false_r. symmetry. rewrite MS. apply Z.mod_pow2_bits_high. lia.
    - rewrite andb_true_r. rewrite MS at 2. destruct (Z_lt_le_dec n (eb + fb)); [symmetry; apply Z.mod_pow2_bits_low; lia|].
      rewrite Z.mod_pow2_bits_high by lia. destruct (Z.eq_dec (m + (if s then sb else 0)) 0) as [->|]; [apply Z.bits_0|].
      apply Z.bits_above_log2; [lia|]. assert (Z.log2 (m + (if s then sb else 0)) < eb + fb + 1) by (apply Z.log2_lt_pow2; lia). lia. }
  rewrite E. split; [lia|]. destruct (ieee_signed m s Bm) as [A S].
  destruct (ieee_val eb fb m) as [q|t|] eqn:IV, (ieee_val eb fb (m + (if s then sb else 0))) as [q'|t'|]; destruct s; cbn [x_opp x_abs same_ext] in *; try discriminate; try reflexivity.
  - rewrite A, Qabs_opp. symmetry. apply Qabs_pos. exact S.
  - rewrite A. symmetry. apply Qabs_pos. exact S.
  - rewrite S. reflexivity.
  - rewrite S. reflexivity.
Qed.
End sign.

(** Equal numbers other than zero have equal patterns. *)
Lemma ieee_inj eb fb a b p q : fmt_ok eb fb -> 0 <= a < 2 ^ (eb + fb + 1) -> 0 <= b < 2 ^ (eb + fb + 1) ->
  ieee_val eb fb a = FinVal p -> ieee_val eb fb b = FinVal q -> (p == q)%Q -> ~ (p == 0)%Q -> a = b.
Proof.
  intros FO A B IA IB PQ NZ. destruct (ieee_code_inv eb fb FO a p A IA) as (s & g & G & -> & EQ). destruct (ieee_code_inv eb fb FO b q B IB) as (t & h & H & -> & EQ').
  pose proof (mval_0 eb fb FO) as M0.
  assert (GP : 0 < g) by (destruct (Z.eq_dec g 0) as [->|]; [exfalso; apply NZ; rewrite EQ; destruct s; cbn [sgq]; rewrite M0; reflexivity|lia]).
  assert (HP : 0 < h) by (destruct (Z.eq_dec h 0) as [->|]; [exfalso; apply NZ; rewrite PQ, EQ'; destruct t; cbn [sgq]; rewrite M0; reflexivity|lia]).
  pose proof (mval_pos eb fb FO g GP). pose proof (mval_pos eb fb FO h HP).
  assert (ST : s = t) by (destruct s, t; cbn [sgq] in *; try reflexivity; lra). subst t.
  assert (ME : (mval eb fb g == mval eb fb h)%Q) by (destruct s; cbn [sgq] in *; lra).
  assert (g = h).
  { destruct (Z_lt_le_dec g h) as [L|L]; [pose proof (mval_lt eb fb FO g h ltac:(lia) L); lra|].
    destruct (Z.eq_dec g h); [assumption|]. pose proof (mval_lt eb fb FO h g ltac:(lia) ltac:(lia)). lra. }
  subst h. reflexivity.
Qed.
Lemma ieee_inf_inj eb fb a b s : fmt_ok eb fb -> 0 <= a < 2 ^ (eb + fb + 1) -> 0 <= b < 2 ^ (eb + fb + 1) ->
  ieee_val eb fb a = InfVal s -> ieee_val eb fb b = InfVal s -> a = b.
Proof.
  intros FO A B IA IB. destruct (ieee_cases eb fb FO a A) as (_ & _ & C). destruct (ieee_cases eb fb FO b B) as (_ & _ & C'). rewrite IA in C. rewrite IB in C'.
  rewrite <- (fbits_inv eb fb a FO A), <- (fbits_inv eb fb b FO B). destruct C as (-> & -> & <-), C' as (-> & -> & <-). reflexivity.
Qed.
