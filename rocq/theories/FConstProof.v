(** count_leading_zeroes and float2bits. *)
From Coq Require Import ZArith QArith Lia Bool List.
From Verif Require Import Res CInt Cfg Spec Core QPow Arith BitsProof FConst Conv1 Conv4 Conv5 EncodeProof.
Open Scope Z_scope.

(** Top [j] bits of an [n+1] bit number are ones. *)
Definition top_ones (n j v : Z) : Prop :=
  forall i, 0 <= i -> (n < i -> Z.testbit v i = false) /\ (n - j < i <= n -> Z.testbit v i = true).
Lemma smear_top n j v : 0 <= n -> 0 <= j -> top_ones n j v -> top_ones n (2 * j) (smear j v).
Proof.
  intros N J T i I. unfold smear, cor. rewrite Z.lor_spec, div_bits by lia. split; intros H.
  - rewrite (proj1 (T i I)), (proj1 (T (i + j) ltac:(lia))) by lia. reflexivity.
  - destruct (Z_lt_ge_dec (n - j) i) as [L|L].
    + rewrite (proj2 (T i I)) by lia. reflexivity.
    + rewrite (proj2 (T (i + j) ltac:(lia))) by lia. apply orb_true_r.
Qed.
Lemma top_all n v : 0 <= n < 64 -> top_ones n 64 v -> v = 2 ^ (n + 1) - 1.
Proof.
  intros N T. apply Z.bits_inj'. intros i I. rewrite ones_bits by lia.
  destruct (Z.ltb_spec i (n + 1)); [apply T; lia|apply T; lia].
Qed.

Definition clz_lookup (n : Z) : bool :=
  nth (Z.to_nat (wrapu 64 (2 ^ n * 0x0218a392cd3d5dbf) / 2 ^ 58)) bit_position 0 =? n.
Lemma lookup_all n : 0 <= n < 64 -> clz_lookup n = true.
Proof.
  intros N. assert (A : forallb (fun k => clz_lookup (Z.of_nat k)) (seq 0 64) = true) by (vm_compute; reflexivity).
  rewrite forallb_forall in A. specialize (A (Z.to_nat n)). rewrite Z2Nat.id in A by lia. apply A. apply in_seq. lia.
Qed.

Lemma clz64_log2 v : 0 < v < 2 ^ 64 -> count_leading_zeroes v = 63 - Z.log2 v.
Proof.
  intros V. unfold count_leading_zeroes. set (n := Z.log2 v).
  assert (N : 0 <= n < 64) by (split; [apply Z.log2_nonneg|apply Z.log2_lt_pow2; lia]).
  assert (T0 : top_ones n 1 v).
  { intros i I. split; intros H.
    - apply Z.bits_above_log2; unfold n in *; lia.
    - replace i with n by lia. apply Z.bit_log2. lia. }
  apply smear_top in T0; [|lia|lia]. apply smear_top in T0; [|lia|lia]. apply smear_top in T0; [|lia|lia].
  apply smear_top in T0; [|lia|lia]. apply smear_top in T0; [|lia|lia]. apply smear_top in T0; [|lia|lia].
  change (2 * (2 * (2 * (2 * (2 * (2 * 1)))))) with 64 in T0.
  change (2 * (2 * (2 * (2 * (2 * 1))))) with 32 in T0. change (2 * (2 * (2 * (2 * 1)))) with 16 in T0.
  change (2 * (2 * (2 * 1))) with 8 in T0. change (2 * (2 * 1)) with 4 in T0. change (2 * 1) with 2 in T0.
  apply top_all in T0; [|assumption]. rewrite T0.
  assert (E : wrapu 64 ((2 ^ (n + 1) - 1) / 2 + 1) = 2 ^ n).
  { pow_pos 2 n. rewrite Z.pow_add_r by lia. change (2 ^ 1) with 2.
    assert (D : (2 ^ n * 2 - 1) / 2 = 2 ^ n - 1) by (symmetry; apply (Z.div_unique _ _ _ 1); lia). rewrite D.
    unfold wrapu. replace (2 ^ n - 1 + 1) with (2 ^ n) by lia. apply Z.mod_small. split; [lia|]. apply Z.pow_lt_mono_r; lia. }
  rewrite E. pose proof (lookup_all n N) as L. unfold clz_lookup in L. apply Z.eqb_eq in L. rewrite L. reflexivity.
Qed.
Lemma clz64_bounds v : 0 < v < 2 ^ 64 ->
  0 <= count_leading_zeroes v < 64 /\ 2 ^ (63 - count_leading_zeroes v) <= v < 2 ^ (64 - count_leading_zeroes v).
Proof.
  intros V. rewrite clz64_log2 by assumption. destruct (Z.log2_spec v ltac:(lia)) as [L1 L2].
  assert (0 <= Z.log2 v) by apply Z.log2_nonneg. assert (Z.log2 v < 64) by (apply Z.log2_lt_pow2; lia).
  split; [lia|]. replace (63 - (63 - Z.log2 v)) with (Z.log2 v) by lia.
  replace (64 - (63 - Z.log2 v)) with (Z.succ (Z.log2 v)) by lia. lia.
Qed.

(** The number of turns of the loop. *)
Lemma scale_up_spec fuel : forall u e, 0 < u < 2 ^ 277 -> 2 ^ 236 <= u * 2 ^ (41 * Z.of_nat fuel) ->
  exists k, 0 <= k <= Z.of_nat fuel /\ scale_up fuel u e = Some (u * 2 ^ (41 * k), e - 41 * k) /\
    2 ^ 236 <= u * 2 ^ (41 * k) < 2 ^ 277.
Proof.
  induction fuel as [|fuel IH]; intros u e U B; cbn [scale_up]; change (87 + 149) with 236.
  - change (41 * Z.of_nat 0) with 0 in B. destruct (Z.ltb_spec u (2 ^ 236)); [lia|].
    exists 0. change (41 * 0) with 0. rewrite Z.mul_1_r, Z.sub_0_r. split; [lia|]. split; [reflexivity|lia].
  - destruct (Z.ltb_spec u (2 ^ 236)).
    + destruct (IH (u * 2 ^ 41) (e - 41)) as (k & K1 & K2 & K3).
      * change (2 ^ 277) with (2 ^ 236 * 2 ^ 41). lia.
      * rewrite <- Z.mul_assoc, <- Z.pow_add_r by lia. replace (41 + 41 * Z.of_nat fuel) with (41 * Z.of_nat (S fuel)) by lia. assumption.
      * exists (k + 1). rewrite <- Z.mul_assoc, <- Z.pow_add_r in K2, K3 by lia.
        replace (41 * (k + 1)) with (41 + 41 * k) by lia. rewrite K2. split; [lia|]. split; [f_equal; f_equal; lia|assumption].
    + exists 0. change (41 * 0) with 0. rewrite Z.mul_1_r, Z.sub_0_r. split; [lia|]. split; [reflexivity|lia].
Qed.

Lemma float2bits_core neg M j : 0 < M < 2 ^ 24 -> 0 <= j <= 253 -> 2 ^ 23 <= M \/ j = 0 ->
  float2bits 6 (CFin neg (M * 2 ^ j)) =
    Some (Ok (fbits 8 23 neg (if M <? 2 ^ 23 then 0 else j + 1) (M mod 2 ^ 23))).
Proof.
  intros HM Hj C. unfold float2bits. pow_pos 2 j. assert (U0 : 0 < M * 2 ^ j) by nia.
  destruct (Z.eqb_spec (M * 2 ^ j) 0); [lia|].
  assert (U1 : M * 2 ^ j < 2 ^ 277).
  { assert (2 ^ j <= 2 ^ 253) by (apply pow2_mono; lia). change (2 ^ 277) with (2 ^ 24 * 2 ^ 253). nia. }
  destruct (scale_up_spec 6 (M * 2 ^ j) 254 (conj U0 U1)) as (k & K1 & K2 & K3).
  { change (41 * Z.of_nat 6) with 246. assert (1 * 2 ^ 246 <= M * 2 ^ j * 2 ^ 246) by nia. change (2 ^ 236) with (2 ^ 236) in *.
    assert (2 ^ 236 <= 2 ^ 246) by (apply pow2_mono; lia). lia. }
  rewrite K2. clear K2. change (Z.of_nat 6) with 6 in K1. rewrite <- Z.mul_assoc, <- Z.pow_add_r in * by lia. change (149 + 64) with 213.
  set (t := j + 41 * k) in *. assert (T : 213 <= t).
  { destruct (Z_le_gt_dec 213 t) as [A|A]; [assumption|exfalso]. assert (2 ^ t <= 2 ^ 212) by (apply pow2_mono; unfold t in *; lia).
    change (2 ^ 236) with (2 ^ 24 * 2 ^ 212) in K3. pow_pos 2 t. nia. }
  assert (A : M * 2 ^ t / 2 ^ 213 = M * 2 ^ (t - 213)).
  { replace t with ((t - 213) + 213) at 1 by lia. rewrite Z.pow_add_r, Z.mul_assoc by lia. apply Z.div_mul. lia. }
  rewrite A. pow_pos 2 (t - 213). set (a := M * 2 ^ (t - 213)) in *.
  assert (AB : 0 < a < 2 ^ 64).
  { split; [unfold a; nia|]. assert (E : M * 2 ^ t = a * 2 ^ 213) by (unfold a; rewrite <- Z.mul_assoc, <- Z.pow_add_r by lia; f_equal; f_equal; lia).
    rewrite E in K3. change (2 ^ 277) with (2 ^ 64 * 2 ^ 213) in K3. nia. }
  rewrite clz64_log2 by assumption.
  assert (LA : Z.log2 a = Z.log2 M + (t - 213)) by (unfold a; rewrite <- Z.shiftl_mul_pow2 by lia; rewrite Z.log2_shiftl by lia; reflexivity).
  rewrite LA. assert (LM : 0 <= Z.log2 M) by apply Z.log2_nonneg.
  assert (L64 : Z.log2 a < 64) by (apply Z.log2_lt_pow2; lia).
  assert (SH : forall n, 0 <= n < 64 -> cshl (uint 64) a n = Ok (wrapu 64 (a * 2 ^ n))).
  { intros n' Hn'. unfold cshl. cbn [uint iw isg]. destruct (Z.ltb_spec n' 0); [lia|]. destruct (Z.leb_spec 64 n'); [lia|]. reflexivity. }
  assert (SG : cshl (uint 32) (if neg then 1 else 0) 31 = Ok ((if neg then 1 else 0) * 2 ^ 31)) by (destruct neg; reflexivity).
  assert (EX : forall e, 0 <= e <= 254 -> cshl c_int e 23 = Ok (e * 2 ^ 23)).
  { intros e He. unfold cshl. cbn [c_int sint iw isg]. change ((23 <? 0) || (32 <=? 23)) with false. cbn iota.
    destruct (Z.ltb_spec e 0); [lia|]. change (2 ^ 23) with 8388608. change (2 ^ 32) with 4294967296.
    destruct (Z.leb_spec 4294967296 (e * 8388608)); [lia|].
    f_equal. apply wraps_small; [lia|]. change (2 ^ (32 - 1)) with 2147483648. lia. }
  assert (FIN : forall e m, 0 <= e <= 254 -> 0 <= m < 2 ^ 23 ->
    cor (cor ((if neg then 1 else 0) * 2 ^ 31) (cast (uint 32) (e * 2 ^ 23))) (cast (uint 32) m) = fbits 8 23 neg e m).
  { intros e m He Hm. change (2 ^ 23) with 8388608 in *. 
    rewrite (cast_u_small 32 (e * 8388608)) by (change (2 ^ 32) with 4294967296; lia). rewrite (cast_u_small 32 m) by (change (2 ^ 32) with 4294967296; lia).
    unfold cor, fbits. change (2 ^ (8 + 23)) with (2 ^ 31). change (2 ^ 23) with 8388608.
    rewrite (Z.lor_comm _ (e * 8388608)). rewrite lor_add by (change (2 ^ 31) with 2147483648; lia).
    rewrite Z.lor_comm. replace (e * 8388608 + (if neg then 1 else 0) * 2 ^ 31) with ((e + (if neg then 1 else 0) * 256) * 2 ^ 23)
      by (change (2 ^ 31) with 2147483648; change (2 ^ 23) with 8388608; ring).
    rewrite lor_add by (change (2 ^ 23) with 8388608; lia).
    change (2 ^ 31) with 2147483648; change (2 ^ 23) with 8388608; ring. }
  f_equal. destruct (Z.ltb_spec M (2 ^ 23)) as [Lo|Hi].
  - assert (J0 : j = 0) by lia. assert (K6 : k = 6) by (unfold t in *; lia).
    assert (LM2 : Z.log2 M < 23) by (apply Z.log2_lt_pow2; lia).
    assert (TT : t = 246) by (unfold t; lia). rewrite TT, K6.
    destruct (Z.leb_spec (254 - 41 * 6 - (63 - (Z.log2 M + (246 - 213)))) 0); [|lia].
    rewrite SH by lia. cbn [bind]. unfold a. rewrite TT. change (246 - 213) with 33. change (7 + 1) with 8.
    assert (E : wrapu 64 (M * 2 ^ 33 * 2 ^ 8) = M * 2 ^ 41).
    { unfold wrapu. replace (M * 2 ^ 33 * 2 ^ 8) with (M * 2 ^ 41) by (change (2 ^ 41) with (2 ^ 33 * 2 ^ 8); ring).
      apply Z.mod_small. change (2 ^ 64) with (2 ^ 23 * 2 ^ 41). nia. }
    rewrite E. rewrite cshr_ok by (cbn; lia). cbn [bind]. change (64 - 23) with 41. rewrite Z.div_mul by lia.
    rewrite SG. cbn [bind]. rewrite EX by lia. cbn [bind]. f_equal. rewrite Z.mod_small by lia. apply FIN; lia.
  - assert (LM3 : Z.log2 M = 23) by (apply Z.log2_unique; [lia|]; change (2 ^ 24) with (2 ^ Z.succ 23) in HM; lia).
    rewrite LM3. set (lz := 63 - (23 + (t - 213))).
    assert (EE : 254 - 41 * k - lz = j + 1) by (unfold lz, t; lia). rewrite EE.
    destruct (Z.leb_spec (j + 1) 0); [lia|].
    rewrite SH by (unfold lz; lia). cbn [bind]. 
    assert (E : wrapu 64 (a * 2 ^ (lz + 1)) = (M mod 2 ^ 23) * 2 ^ 41).
    { unfold wrapu, a. rewrite <- Z.mul_assoc, <- Z.pow_add_r by (unfold lz; lia).
      replace (t - 213 + (lz + 1)) with 41 by (unfold lz; lia). change (2 ^ 64) with (2 ^ 23 * 2 ^ 41).
      rewrite Z.mul_mod_distr_r by lia. reflexivity. }
    rewrite E. rewrite cshr_ok by (cbn; lia). cbn [bind]. change (64 - 23) with 41. rewrite Z.div_mul by lia.
    rewrite SG. cbn [bind]. rewrite EX by lia. cbn [bind]. f_equal.
    apply FIN; [lia|]. apply Z.mod_pos_bound. lia.
Qed.

Lemma fmt_single : fmt_ok 8 23.
Proof. constructor; unfold is_width; lia. Qed.

Lemma float2bits_exact b q (neg : bool) u : 0 <= b < 2 ^ 32 -> b <> 2 ^ 31 -> ieee_val 8 23 b = FinVal q ->
  (0 <= u) -> (q == (if neg then -1 else 1) * (inject_Z u * pow2 (-149)))%Q ->
  float2bits 6 (CFin neg u) = Some (Ok b).
Proof.
  intros B NZ I HU Q. pose proof fmt_single as FO.
  destruct (ieee_cases 8 23 FO b B) as (Bf & Be & C). rewrite I in C.
  pose proof (Conv5.fbits_inv 8 23 b FO B) as INV.
  set (s := fsign_of 8 23 b) in *. set (e := fexp_of 8 23 b) in *. set (m := ffrac_of 23 b) in *. clearbody s e m.
  change (2 ^ (8 - 1) - 1) with 127 in C.
  assert (QU : (q == dy (if neg then - u else u) (-149))%Q).
  { rewrite Q. unfold dy. destruct neg; rewrite ?inject_Z_opp; ring. }
  destruct C as [C1 [[C2 C3]|[C2 C3]]].
  - change (1 - 127 - 23) with (-149) in C3.
    assert (E : (if neg then - u else u) = (if s then - m else m)).
    { apply (dy_eq_inv _ _ (-149)). rewrite <- QU, C3. unfold sgn1, dy. destruct s; rewrite ?inject_Z_opp; ring. }
    destruct (Z.eq_dec m 0) as [M0|M0].
    + assert (u = 0) by (destruct neg, s; lia). subst u m e. unfold float2bits. cbn [Z.eqb]. f_equal. f_equal.
      unfold fbits in INV. change (2 ^ (8 + 23)) with (2 ^ 31) in INV. destruct s; lia.
    + assert (EE : neg = s /\ u = m) by (destruct neg, s; split; (reflexivity || lia)). destruct EE as [-> ->].
      pose proof (float2bits_core s m 0 ltac:(lia) ltac:(lia) ltac:(lia)) as F. rewrite Z.mul_1_r in F.
      rewrite F. rewrite (Z.mod_small m) by lia. destruct (Z.ltb_spec m (2 ^ 23)); [|lia]. rewrite <- INV, C2. reflexivity.
  - change (2 ^ 8 - 1) with 255 in *. change (2 ^ 8) with 256 in *.
    assert (E : (if neg then - u else u) = (if s then - ((2 ^ 23 + m) * 2 ^ (e - 1)) else (2 ^ 23 + m) * 2 ^ (e - 1))).
    { apply (dy_eq_inv _ _ (-149)). rewrite <- QU, C3.
      assert (D : (dy (2 ^ 23 + m) (e - 127 - 23) == dy ((2 ^ 23 + m) * 2 ^ (e - 1)) (-149))%Q)
        by (rewrite dy_pow by lia; replace (-149 + (e - 1)) with (e - 127 - 23) by lia; reflexivity).
      rewrite D. unfold sgn1, dy. destruct s; rewrite ?inject_Z_opp; ring. }
    pow_pos 2 (e - 1). assert (P : 0 < (2 ^ 23 + m) * 2 ^ (e - 1)) by nia.
    assert (EE : neg = s /\ u = (2 ^ 23 + m) * 2 ^ (e - 1)) by (destruct neg, s; split; (reflexivity || lia)). destruct EE as [-> ->].
    rewrite float2bits_core by lia. destruct (Z.ltb_spec (2 ^ 23 + m) (2 ^ 23)); [lia|].
    replace (e - 1 + 1) with e by lia. replace (2 ^ 23 + m) with (m + 1 * 2 ^ 23) by lia. rewrite Z.mod_add, Z.mod_small by lia.
    rewrite INV. reflexivity.
Qed.
Lemma float2bits_special n :
  (float2bits n (CInf false) = Some (Ok 0x7f800000) /\ ieee_val 8 23 0x7f800000 = InfVal false) /\
  (float2bits n (CInf true) = Some (Ok 0xff800000) /\ ieee_val 8 23 0xff800000 = InfVal true) /\
  (float2bits n CNaN = Some (Ok 0x7fc00000) /\ ieee_val 8 23 0x7fc00000 = NaNVal).
Proof. repeat split. Qed.
