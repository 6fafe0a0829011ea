(** Halves to singles and doubles. *)
From Coq Require Import ZArith QArith Qabs Bool List Lia Lqa.
From Verif Require Import Res CInt Spec SpecFloat SpecHalf Core Arith QPow EncodeProof Conv1 Conv4 Conv5 FloatProof SoftProof WideProof MatHalf MatProof MatProof2 MatProof3.
Import ListNotations.
Open Scope Z_scope.

Lemma half_fields h : 0 <= h < 2 ^ 16 -> exists s E m, 0 <= E < 32 /\ 0 <= m < 1024 /\ h = sg15 s + E * 1024 + m.
Proof.
  intros H. exists (negb (h / 2 ^ 15 =? 0)), ((h mod 2 ^ 15) / 1024), (h mod 1024).
  pose proof (Z.div_mod h (2 ^ 15) ltac:(lia)) as D1. pose proof (Z.mod_pos_bound h (2 ^ 15) ltac:(lia)) as B1.
  assert (Q : 0 <= h / 2 ^ 15 < 2) by (split; [apply Z.div_pos; lia|apply Z.div_lt_upper_bound; lia]).
  assert (M : h mod 1024 = (h mod 2 ^ 15) mod 1024) by (apply Znumtheory.Zmod_div_mod; [lia|lia|exists 32; reflexivity]).
  set (y := h mod 2 ^ 15) in *. rewrite M. pose proof (Z.div_mod y 1024 ltac:(lia)) as D2. pose proof (Z.mod_pos_bound y 1024 ltac:(lia)) as B2.
  split; [split; [apply Z.div_pos; lia|apply Z.div_lt_upper_bound; lia]|]. split; [assumption|].
  unfold sg15. destruct (Z.eqb_spec (h / 2 ^ 15) 0); cbn [negb]; lia.
Qed.
Section half.
Variables (s : bool) (E m : Z).
Hypothesis HE : 0 <= E < 32.
Hypothesis Hm : 0 <= m < 1024.
Local Notation h := (sg15 s + E * 1024 + m).
Lemma half_mag : cand h 0x7FFF = E * 1024 + m.
Proof using HE Hm.
  unfold cand. change 0x7FFF with (2 ^ 0 * (2 ^ 15 - 1)). rewrite land_field by lia. change (2 ^ 0) with 1. rewrite Z.div_1_r, Z.mul_1_r.
  rewrite <- Z.add_assoc, Z.add_comm. destruct s; cbn [sg15].
  - rewrite <- (Z.mul_1_l (2 ^ 15)) at 1. rewrite Z.mod_add by lia. apply Z.mod_small. lia.
  - rewrite Z.add_0_r. apply Z.mod_small. lia.
Qed.
Lemma half_sign : h / 2 ^ 15 = if s then 1 else 0.
Proof using HE Hm. rewrite <- Z.add_assoc, Z.add_comm. apply sg15_div. lia. Qed.
Lemma half_sign_field : cand h 0x8000 = sg15 s.
Proof using HE Hm. unfold cand. change 0x8000 with (2 ^ 15 * (2 ^ 1 - 1)). rewrite land_field, half_sign by lia. destruct s; reflexivity. Qed.
Lemma half_exp_field : cand h 0x7C00 = E * 1024.
Proof using HE Hm.
  unfold cand. change 0x7C00 with (2 ^ 10 * (2 ^ 5 - 1)). rewrite land_field by lia. change (2 ^ 10) with 1024. f_equal.
  replace h with ((sg15 s / 1024 + E) * 1024 + m) by (destruct s; cbn [sg15]; change (2 ^ 15 / 1024) with 32; change (0 / 1024) with 0; lia).
  rewrite Z.div_add_l by lia. rewrite (Z.div_small m 1024), Z.add_0_r by lia. destruct s; cbn [sg15].
  - change (2 ^ 15 / 1024) with (1 * 2 ^ 5). rewrite Z.add_comm, Z.mod_add by lia. apply Z.mod_small. lia.
  - change (0 / 1024) with 0. apply Z.mod_small. lia.
Qed.
Lemma half_frac_field : cand h 0x03FF = m.
Proof using HE Hm.
  unfold cand. change 0x03FF with (2 ^ 0 * (2 ^ 10 - 1)). rewrite land_field by lia. change (2 ^ 0) with 1. rewrite Z.div_1_r, Z.mul_1_r.
  replace h with (m + (sg15 s / 1024 + E) * 2 ^ 10) by (destruct s; cbn [sg15]; change (2 ^ 15 / 1024) with 32; change (0 / 1024) with 0; lia).
  rewrite Z.mod_add by lia. apply Z.mod_small. lia.
Qed.
End half.

Lemma normalise_ok k : forall e hm, -1 <= e -> e + Z.of_nat k <= 100 -> 0 < hm < 1024 -> 1024 <= hm * 2 ^ Z.of_nat k ->
  normalise k e hm = Ok (e + (10 - Z.log2 hm), hm * 2 ^ (10 - Z.log2 hm)).
Proof.
  induction k as [|k IH]; intros e hm He Hk Hh Hp; [change (2 ^ Z.of_nat 0) with 1 in Hp; lia|].
  cbn [normalise]. rewrite cadd_in by lia. cbn [bind]. rewrite cshl_int by lia. cbn [bind]. change (2 ^ 1) with 2.
  rewrite cast_u16 by lia. pose proof (bit_test (hm * 2) 10 0x0400 ltac:(lia) eq_refl) as T.
  assert (D : 0 <= hm * 2 / 2 ^ 10 < 2) by (split; [apply Z.div_pos; lia|apply Z.div_lt_upper_bound; lia]). rewrite Z.mod_small in T by assumption.
  pose proof (Z.div_mod (hm * 2) (2 ^ 10) ltac:(lia)) as DM. pose proof (Z.mod_pos_bound (hm * 2) (2 ^ 10) ltac:(lia)) as MB.
  assert (LG : Z.log2 (hm * 2) = Z.log2 hm + 1) by (rewrite Z.mul_comm, Z.log2_double by lia; lia).
  destruct (cand (hm * 2) 0x0400 =? 0); cbn [negb] in T; symmetry in T.
  - apply Z.eqb_neq in T. rewrite IH; [|lia|lia|lia|].
    + rewrite LG. f_equal. f_equal; [lia|]. assert (L9 : Z.log2 hm < 9).
      { apply Z.log2_lt_pow2; lia. }
      rewrite <- Z.mul_assoc. change 2 with (2 ^ 1) at 1. rewrite <- Z.pow_add_r by lia. f_equal. f_equal. lia.
    + rewrite Nat2Z.inj_succ, Z.pow_succ_r in Hp by lia. lia.
  - apply Z.eqb_eq in T. assert (L9 : Z.log2 hm = 9) by (apply Z.log2_unique; lia). rewrite L9. change (10 - 9) with 1. change (2 ^ 1) with 2. reflexivity.
Qed.

(** The word written, for fractions of [f] bits and exponent bias [B]. *)
Definition nan_half (E m : Z) : bool := (E =? 31) && negb (m =? 0).
Definition wide_s (s : bool) (E m : Z) : bool := if nan_half E m then true else s.
Definition wide_e (B E m : Z) : Z :=
  if E =? 0 then (if m =? 0 then 0 else B - 15 - (9 - Z.log2 m)) else if E =? 31 then 2 * B + 1 else E - 15 + B.
Definition wide_m (E m : Z) : Z :=
  if E =? 0 then (if m =? 0 then 0 else m * 2 ^ (10 - Z.log2 m) - 1024) else if E =? 31 then (if m =? 0 then 0 else 512) else m.
Definition wide_word (f B : Z) (s : bool) (E m : Z) : Z := sg31 (wide_s s E m) + wide_e B E m * 2 ^ f + wide_m E m * 2 ^ (f - 10).

Lemma or_words s f e m : 1 <= f <= 30 -> 0 <= e < 2 ^ (31 - f) -> 0 <= m < 2 ^ f -> cor (cor (sg31 s) (e * 2 ^ f)) m = sg31 s + e * 2 ^ f + m.
Proof.
  intros F E M. pose proof (mag_bound f e m F E M) as B. unfold cor. rewrite <- Z.lor_assoc, (lor_split f) by lia.
  unfold sg31. destruct s; [|rewrite Z.lor_0_l; lia]. rewrite <- (Z.mul_1_l (2 ^ 31)) at 1. rewrite lor_split by lia. lia.
Qed.
Lemma sg_up s : sg15 s * 2 ^ 16 = sg31 s. Proof. destruct s; reflexivity. Qed.
Lemma log2_half m : 0 < m < 1024 -> 0 <= Z.log2 m <= 9 /\ 1024 <= m * 2 ^ (10 - Z.log2 m) < 2048.
Proof.
  intros M. assert (L0 : 0 <= Z.log2 m) by apply Z.log2_nonneg. assert (L9 : Z.log2 m < 10) by (apply Z.log2_lt_pow2; lia). split; [lia|].
  pose proof (Z.log2_spec m ltac:(lia)) as [A B]. rewrite Z.pow_succ_r in B by assumption.
  assert (P : 2 ^ Z.log2 m * 2 ^ (10 - Z.log2 m) = 1024) by (rewrite <- Z.pow_add_r by lia; change 1024 with (2 ^ 10); f_equal; lia).
  pow_pos 2 (10 - Z.log2 m). nia.
Qed.

Lemma h2s_word s E m : 0 <= E < 32 -> 0 <= m < 1024 -> h2s (sg15 s + E * 1024 + m) = Ok (wide_word 23 127 s E m).
Proof.
  intros HE Hm. unfold h2s, wide_word, wide_s, wide_e, wide_m, nan_half. cbv zeta.
  rewrite half_mag, half_sign_field, half_exp_field, half_frac_field by assumption. pose proof (sg_bound s) as SB.
  assert (S16 : sg15 s * 2 ^ 16 < 2 ^ 32) by lia.
  destruct (Z.eqb_spec (E * 1024 + m) 0) as [Z0|Z0].
  { assert (E = 0) as -> by lia. assert (m = 0) as -> by lia. cbn [Z.eqb andb]. rewrite cshl_u32 by lia. f_equal. rewrite !Z.add_0_r, sg_up. lia. }
  destruct (Z.eqb_spec (E * 1024) 0) as [E0|E0].
  { assert (E = 0) as -> by lia. cbn [Z.eqb andb]. destruct (Z.eqb_spec m 0); [lia|]. destruct (log2_half m ltac:(lia)) as [L1 L2].
    rewrite normalise_ok; [|lia|lia|lia|change (2 ^ Z.of_nat 16) with 65536; lia]. cbn [bind fst snd].
    rewrite cshl_u32 by lia. cbn [bind]. rewrite (cshr_in c_int) by (cbn [iw c_int sint]; lia). cbn [bind].
    change (0 * 1024 / 2 ^ 10) with 0. rewrite csub_in by lia. cbn [bind]. rewrite cadd_in by lia. cbn [bind]. rewrite csub_in by lia. cbn [bind].
    replace (0 - 15 + 127 - (-1 + (10 - Z.log2 m))) with (127 - 15 - (9 - Z.log2 m)) by lia.
    rewrite cshl_int by lia. cbn [bind]. rewrite cast_u32 by lia.
    assert (FR : cand (m * 2 ^ (10 - Z.log2 m)) 1023 = m * 2 ^ (10 - Z.log2 m) - 1024).
    { set (v := m * 2 ^ (10 - Z.log2 m)) in *. pose proof (half_frac_field false 1 (v - 1024) ltac:(lia) ltac:(lia)) as H. cbn [sg15] in H.
      replace (0 + 1 * 1024 + (v - 1024)) with v in H by lia. exact H. }
    rewrite FR. rewrite cshl_u32 by lia. cbn [bind]. rewrite sg_up, or_words by (try lia; cbn; lia). reflexivity. }
  destruct (Z.eqb_spec E 0); [lia|].
  destruct (Z.eqb_spec (E * 1024) 0x7C00) as [E1|E1].
  { assert (E = 31) as -> by lia. cbn [Z.eqb andb]. destruct (Z.eqb_spec m 0) as [M0|M0]; cbn [negb]; [|reflexivity].
    rewrite cshl_u32 by lia. cbn [bind]. rewrite sg_up. change 0x7F800000 with (255 * 2 ^ 23).
    pose proof (or_words s 23 255 0 ltac:(lia) ltac:(cbn; lia) ltac:(lia)) as O. unfold cor in O. rewrite Z.lor_0_r in O. unfold cor. rewrite O. reflexivity. }
  destruct (Z.eqb_spec E 31); [lia|]. cbn [andb].
  rewrite cshl_u32 by lia. cbn [bind]. rewrite (cshr_in c_int) by (cbn [iw c_int sint]; lia). cbn [bind]. change (2 ^ 10) with 1024. rewrite Z.div_mul by lia.
  rewrite csub_in by lia. cbn [bind]. rewrite cadd_in by lia. cbn [bind]. rewrite cshl_int by lia. cbn [bind]. rewrite cast_u32 by lia.
  rewrite cshl_u32 by lia. cbn [bind]. rewrite sg_up, or_words by (try lia; cbn; lia). reflexivity.
Qed.
Lemma h2d_word s E m : 0 <= E < 32 -> 0 <= m < 1024 -> h2d (sg15 s + E * 1024 + m) = Ok (wide_word 20 1023 s E m).
Proof.
  intros HE Hm. unfold h2d, wide_word, wide_s, wide_e, wide_m, nan_half. cbv zeta.
  rewrite half_mag, half_sign_field, half_exp_field, half_frac_field by assumption. pose proof (sg_bound s) as SB.
  assert (S16 : sg15 s * 2 ^ 16 < 2 ^ 32) by lia.
  destruct (Z.eqb_spec (E * 1024 + m) 0) as [Z0|Z0].
  { assert (E = 0) as -> by lia. assert (m = 0) as -> by lia. cbn [Z.eqb andb]. rewrite cshl_u32 by lia. f_equal. rewrite !Z.add_0_r, sg_up. lia. }
  destruct (Z.eqb_spec (E * 1024) 0) as [E0|E0].
  { assert (E = 0) as -> by lia. cbn [Z.eqb andb]. destruct (Z.eqb_spec m 0); [lia|]. destruct (log2_half m ltac:(lia)) as [L1 L2].
    rewrite normalise_ok; [|lia|lia|lia|change (2 ^ Z.of_nat 16) with 65536; lia]. cbn [bind fst snd].
    rewrite cshl_u32 by lia. cbn [bind]. rewrite (cshr_in c_int) by (cbn [iw c_int sint]; lia). cbn [bind].
    change (0 * 1024 / 2 ^ 10) with 0. rewrite csub_in by lia. cbn [bind]. rewrite cadd_in by lia. cbn [bind]. rewrite csub_in by lia. cbn [bind].
    replace (0 - 15 + 1023 - (-1 + (10 - Z.log2 m))) with (1023 - 15 - (9 - Z.log2 m)) by lia.
    rewrite cshl_int by lia. cbn [bind]. rewrite cast_u32 by lia.
    assert (FR : cand (m * 2 ^ (10 - Z.log2 m)) 1023 = m * 2 ^ (10 - Z.log2 m) - 1024).
    { set (v := m * 2 ^ (10 - Z.log2 m)) in *. pose proof (half_frac_field false 1 (v - 1024) ltac:(lia) ltac:(lia)) as H. cbn [sg15] in H.
      replace (0 + 1 * 1024 + (v - 1024)) with v in H by lia. exact H. }
    rewrite FR. rewrite cshl_u32 by lia. cbn [bind]. rewrite sg_up, or_words by (try lia; cbn; lia). reflexivity. }
  destruct (Z.eqb_spec E 0); [lia|].
  destruct (Z.eqb_spec (E * 1024) 0x7C00) as [E1|E1].
  { assert (E = 31) as -> by lia. cbn [Z.eqb andb]. destruct (Z.eqb_spec m 0) as [M0|M0]; cbn [negb]; [|reflexivity].
    rewrite cshl_u32 by lia. cbn [bind]. rewrite sg_up. change 0x7FF00000 with (2047 * 2 ^ 20).
    pose proof (or_words s 20 2047 0 ltac:(lia) ltac:(cbn; lia) ltac:(lia)) as O. unfold cor in O. rewrite Z.lor_0_r in O. unfold cor. rewrite O. reflexivity. }
  destruct (Z.eqb_spec E 31); [lia|]. cbn [andb].
  rewrite cshl_u32 by lia. cbn [bind]. rewrite (cshr_in c_int) by (cbn [iw c_int sint]; lia). cbn [bind]. change (E * 1024 / 2 ^ 10) with (E * 1024 / 1024). rewrite Z.div_mul by lia.
  rewrite csub_in by lia. cbn [bind]. rewrite cadd_in by lia. cbn [bind]. rewrite cshl_int by lia. cbn [bind]. rewrite cast_u32 by lia.
  rewrite cshl_u32 by lia. cbn [bind]. rewrite sg_up, or_words by (try lia; cbn; lia). reflexivity.
Qed.
