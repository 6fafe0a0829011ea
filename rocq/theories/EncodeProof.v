(** Full unpack, and pack, in terms of logarithmic coordinates. *)
From Coq Require Import ZArith QArith Lia Lqa Bool List.
From Verif Require Import Res CInt Bits Traits Unpacked Cfg Posit Spec QPow Core SpecLemmas Arith DecodeProof.
Open Scope Z_scope.

Definition sg (neg : bool) (p : Z) : Z := if neg then - p else p.

(** Largest exponent magnitude of the format. *)
Definition emax (c : cfg) : Z := (cN c - 2) * 2 ^ ces c.

Lemma c_E_width c : valid_cfg c -> is_width (c_E c).
Proof.
  intros V. pose proof (vc_H _ V) as W. pose proof (vc_64 _ V) as W4. unfold c_E.
  rewrite Z.geb_leb. destruct (Z.leb_spec (cH c) (cN c + ces c)); [|assumption].
  unfold is_width in *. lia.
Qed.

Lemma lin_lt_pow2 n : 3 <= n -> 4 * (n - 2) < 2 ^ n.
Proof.
  intros H. replace n with (3 + Z.of_nat (Z.to_nat (n - 3))) by lia.
  induction (Z.to_nat (n - 3)) as [|m IH]; [reflexivity|].
  replace (3 + Z.of_nat (S m)) with ((3 + Z.of_nat m) + 1) by lia.
  rewrite pow2_S by lia. lia.
Qed.

Lemma emax_bound c : valid_cfg c -> 1 <= emax c /\ 4 * emax c < 2 ^ (c_E c - 1).
Proof.
  intros V. vcb V. unfold emax, c_E. pow_pos 2 (ces c).
  pose proof (lin_lt_pow2 (cN c) BN) as L. split; [nia|].
  apply Z.lt_le_trans with (2 ^ (cN c + ces c)).
  - rewrite Z.pow_add_r by lia. nia.
  - rewrite Z.geb_leb. destruct (Z.leb_spec (cH c) (cN c + ces c)); apply pow2_mono; lia.
Qed.

Lemma common_E_int c : valid_cfg c -> common (tE c) c_int = sint (pw (c_E c)).
Proof.
  intros V. pose proof (c_E_width _ V) as W. unfold tE.
  destruct W as [->|[->|[->| ->]]]; reflexivity.
Qed.
Lemma common_S_int c : valid_cfg c -> common (tS c) c_int = sint (pw (cH c)).
Proof.
  intros V. pose proof (vc_H _ V) as W. unfold tS.
  destruct W as [->|[->|[->| ->]]]; reflexivity.
Qed.

Lemma pwE_le c : valid_cfg c -> 2 ^ (c_E c - 1) <= 2 ^ (pw (c_E c) - 1).
Proof. intros V. apply pw_ge_w. now apply c_E_width. Qed.

Lemma mul_sandwich k n p : - n <= k <= n -> 0 < p -> - (n * p) <= k * p <= n * p.
Proof. intros; nia. Qed.
Lemma le_mul_l k p : 1 <= p -> 0 <= k -> k <= k * p.
Proof. intros; nia. Qed.

Lemma mul_mono0 k n p : 0 <= k <= n -> 0 < p -> 0 <= k * p <= n * p.
Proof. intros; nia. Qed.
Lemma ef_bound e p f h : 0 <= e < p -> 0 <= f < h -> 0 <= e * h + f < p * h.
Proof. intros; nia. Qed.

Lemma join_spec c k e : valid_cfg c -> - (cN c - 2) <= k <= cN c - 2 -> 0 <= e < 2 ^ ces c ->
  join_reg_exp c k e = Ok (k * 2 ^ ces c + e).
Proof.
  intros V K E. vcb V. destruct (emax_bound c V) as [M1 M2]. unfold emax in *.
  pose proof (pwE_le c V) as PE. pose proof (is_width_pos _ (c_E_width c V)) as BE.
  pow_pos 2 (ces c).
  unfold join_reg_exp. pose proof (pow2_mono (ces c) 30 ltac:(lia)) as P30.
  assert (S : cshl c_int 1 (ces c) = Ok (2 ^ ces c)).
  { unfold cshl. cbn [iw isg c_int sint].
    destruct (Z.ltb_spec (ces c) 0); [lia|]. destruct (Z.leb_spec 32 (ces c)); [lia|]. cbn [orb].
    change (1 <? 0) with false. cbv iota. rewrite Z.mul_1_l.
    destruct (Z.leb_spec (2 ^ 32) (2 ^ ces c)); [lia|].
    f_equal. apply wraps_small; [lia|]. change (2 ^ (32 - 1)) with (2 * 2 ^ 30). lia. }
  rewrite S. cbn [bind]. clear S.
  pose proof (mul_sandwich k (cN c - 2) (2 ^ ces c) K ltac:(lia)) as KE.
  pose proof (le_mul_l (2 ^ ces c) (cN c - 2) ltac:(lia) ltac:(lia)) as KF.
  pose proof (le_mul_l (cN c - 2) (2 ^ ces c) ltac:(lia) ltac:(lia)) as KG.
  rewrite (Z.mul_comm (2 ^ ces c) (cN c - 2)) in KF.
  assert (CK : cast (tE c) k = k).
  { unfold tE. apply cast_s_small; lia. }
  rewrite CK, common_E_int by assumption. unfold cmul.
  rewrite arith_s by (unfold pw in *; lia). cbn [bind]. f_equal.
  unfold cor. rewrite Z.lor_comm, lor_add by lia.
  unfold tE. rewrite cast_s_small; lia.
Qed.

(** Coordinate of a full unpacked value at granularity F, and the same at the granularity of
    the posit format. *)
Definition ycoord (c : cfg) (e f : Z) : Z := ((e * 2 ^ cF c + f) * 2 ^ gran c) / 2 ^ cF c.

Lemma unpack_spec c v : valid_cfg c -> real c v -> v <> 0 ->
  exists e f,
    unpack c v = Ok (U Regular (v <? 0) e f) /\
    0 <= f < 2 ^ cF c /\ - emax c <= e <= emax c /\
    e * 2 ^ cF c + f = (pdec (cN c) (Z.abs v) * 2 ^ cF c) / 2 ^ gran c.
Proof.
  intros V R NZ. vcb V. destruct (unpack_low_spec c v V R NZ) as [e [f [E1 [He [Hf EQ]]]]].
  pose proof (real_bounds c BN Bes v R) as RB.
  unfold unpack. rewrite E1. cbn [bind]. unfold unpacked_low2full. cbn [ltyp lneg lreg lexp lfrac].
  destruct (cast_msb_spec (cH c) (cF c) f (vc_H _ V) (vc_F _ V) Hf) as [f' [F1 [F2 F3]]].
  rewrite F1. cbn [bind].
  destruct (reg_spec (cN c) BN (Z.abs v) ltac:(lia)) as [Rk _].
  set (k := reg (cN c) (Z.abs v)) in *. unfold inreg in Rk.
  rewrite join_spec by (assumption || lia). cbn [bind].
  exists (k * 2 ^ ces c + e), f'. split; [reflexivity|]. split; [assumption|].
  set (G := gran c) in *. assert (HG : G = cN c - 3 - ces c) by reflexivity.
  pow_pos 2 (cF c). pow_pos 2 (cH c). pow_pos 2 G. pow_pos 2 (ces c). pow_pos 2 (cH c - G).
  assert (EH : 2 ^ (cH c - G) * 2 ^ G = 2 ^ cH c) by (rewrite <- Z.pow_add_r by lia; f_equal; lia).
  assert (Q : (k * 2 ^ ces c + e) * 2 ^ cF c + f' =
              (pdec (cN c) (Z.abs v) * 2 ^ cF c) / 2 ^ G).
  { rewrite <- (Z.div_mul_cancel_r (pdec (cN c) (Z.abs v) * 2 ^ cF c) (2 ^ G) (2 ^ (cH c - G))) by lia.
    replace (2 ^ G * 2 ^ (cH c - G)) with (2 ^ cH c) by lia.
    replace (pdec (cN c) (Z.abs v) * 2 ^ cF c * 2 ^ (cH c - G))
      with (f * 2 ^ cF c + (k * 2 ^ ces c + e) * 2 ^ cF c * 2 ^ cH c).
    - rewrite Z.div_add by lia. rewrite F2. lia.
    - replace (pdec (cN c) (Z.abs v) * 2 ^ cF c * 2 ^ (cH c - G))
        with ((pdec (cN c) (Z.abs v) * 2 ^ (cH c - G)) * 2 ^ cF c) by ring.
      rewrite <- EQ. ring. }
  split; [|exact Q].
  destruct (pdec_range (cN c) BN (Z.abs v) ltac:(lia)) as [_ KR].
  split; [unfold emax; nia|].
  unfold emax. destruct (Z.eq_dec k (cN c - 2)) as [K|K]; [|nia].
  (* k = N-2 : the pattern is the last one, e = 0 *)
  assert (PV : pdec (cN c) (Z.abs v) = (cN c - 2) * 2 ^ (cN c - 3)).
  { unfold pdec. fold k. destruct (reg_spec (cN c) BN (Z.abs v) ltac:(lia)) as [_ BK]. fold k in BK.
    unfold cnt in BK. rewrite K, Z.eqb_refl in BK. rewrite K.
    replace (Z.abs v - base (cN c) (cN c - 2)) with 0 by lia. lia. }
  rewrite PV, K in EQ.
  assert (E3 : (cN c - 2) * 2 ^ (cN c - 3) * 2 ^ (cH c - G) = (cN c - 2) * 2 ^ ces c * 2 ^ cH c).
  { rewrite <- !Z.mul_assoc, <- !Z.pow_add_r by lia. f_equal. f_equal. lia. }
  rewrite E3 in EQ.
  assert (e * 2 ^ cH c + f = 0) by lia. assert (e = 0) by nia. rewrite K. lia.
Qed.

(** Exactness of the full unpacked form when FT holds all fraction bits. *)
Lemma unpack_exact c y : gran c <= cF c -> 0 <= gran c ->
  (y * 2 ^ cF c) / 2 ^ gran c = y * 2 ^ (cF c - gran c).
Proof.
  intros L G. pow_pos 2 (gran c).
  replace (cF c) with ((cF c - gran c) + gran c) at 1 by lia.
  rewrite Z.pow_add_r, Z.mul_assoc, Z.div_mul by lia. reflexivity.
Qed.

(** Shift counts of pack_low are in range. *)
Definition packable (c : cfg) (k : Z) : bool :=
  (sft k + 3 <? pw (cH c)) && (sft k + 3 + Z.min (cN c - 3 - sft k) (ces c) <? pw (cH c)).

Lemma base_mult N k : 3 <= N -> inreg N k -> k <> N - 2 ->
  exists b, base N k = b * 2 ^ (N - 3 - sft k).
Proof.
  intros HN R K. unfold base, sft, inreg in *. destruct (Z.leb_spec 0 k).
  - exists (2 ^ (k + 2) - 2). rewrite Z.mul_sub_distr_r, <- Z.pow_add_r by lia.
    rewrite <- (pow2_S (N - 3 - k)) by lia.
    replace (k + 2 + (N - 3 - k)) with (N - 1) by lia.
    replace (N - 3 - k + 1) with (N - 2 - k) by lia. reflexivity.
  - exists 1. rewrite Z.mul_1_l. f_equal. lia.
Qed.

Lemma div_div2 a m n : 0 <= m -> 0 <= n -> a / 2 ^ m / 2 ^ n = a / 2 ^ (m + n).
Proof. intros. rewrite Z.pow_add_r by lia. pow_pos 2 m. pow_pos 2 n. apply Z.div_div; lia. Qed.

(** pack_low on a regular value in range. *)
Lemma pack_low_spec c neg k e f : valid_cfg c -> inreg (cN c) k -> 0 <= e < 2 ^ ces c ->
  0 <= f < 2 ^ cH c ->
  pack_low c (UL Regular neg k e f) =
    if packable c k
    then Ok (sg neg (ppk (cN c) (((k * 2 ^ ces c + e) * 2 ^ cH c + f) / 2 ^ (cH c - gran c))))
    else UB ShiftCount.
Proof.
  intros V R He Hf. vcb V. pose proof (vc_H _ V) as WH.
  set (s := sft k). destruct (sft_bound (cN c) BN k R) as [S0 [S1 S2]]. fold s in S0, S1, S2.
  set (G := gran c). assert (HG : G = cN c - 3 - ces c) by reflexivity.
  pow_pos 2 (cH c). pow_pos 2 (ces c). pow_pos 2 (cN c).
  assert (EN : 2 ^ cN c = 2 * 2 ^ (cN c - 1))
    by (replace (cN c) with ((cN c - 1) + 1) at 1 by lia; apply pow2_S; lia).
  pose proof (pow2_mono (cN c - 1) (cH c - 1) ltac:(lia)) as PM.
  pose proof (pow2_mono (cN c) (cH c) ltac:(lia)) as PMH.
  pose proof (pw_ge (cH c)) as PW. pose proof (pw_ge_w _ WH) as PWW.
  assert (SM : forall z, -100 <= z <= 100 -> - 2 ^ (pw (cH c) - 1) <= z < 2 ^ (pw (cH c) - 1)).
  { intros z Hz. assert (2 ^ 31 = 2147483648) by reflexivity. lia. }
  pose proof R as R0. unfold inreg in R0.
  unfold pack_low. cbn [ltyp lneg lreg lexp lfrac].
  unfold cneg, cadd, csub, tS.
  rewrite arith_ps by (assumption || (apply SM; lia)). cbn [bind].
  rewrite arith_ps by (assumption || (apply SM; lia)). cbn [bind].
  rewrite arith_ps by (assumption || (apply SM; lia)). cbn [bind].
  assert (RS : (if - k + 1 >? k + 2 then - k + 1 else k + 2) = s + 2).
  { unfold s, sft. rewrite Z.gtb_ltb. destruct (Z.ltb_spec (k + 2) (- k + 1)), (Z.leb_spec 0 k); lia. }
  rewrite RS. clear RS.
  rewrite arith_ps by (assumption || (apply SM; lia)). cbn [bind].
  rewrite arith_ps by (assumption || (apply SM; lia)). cbn [bind].
  set (es' := Z.min (cN c - 3 - s) (ces c)).
  assert (ES : (if cN c - (s + 2) - 1 <? ces c then cN c - (s + 2) - 1 else ces c) = es').
  { unfold es'. destruct (Z.ltb_spec (cN c - (s + 2) - 1) (ces c)); lia. }
  rewrite ES. clear ES.
  (* regime bits *)
  assert (RB : exists rb,
    (if k <? 0 then let! r := cshr (prom (tU c)) (HOLDER_MSB c) (- k) in Ok (cast (tU c) r)
     else let! r := cshl (prom (tU c)) (P_MASK c) (HOLDER_SIZE c - (k + 1)) in Ok (cast (tU c) r)) = Ok rb
    /\ rb / 2 ^ 1 / 2 ^ (cH c - cN c) = base (cN c) k).
  { unfold tU. destruct (Z.ltb_spec k 0) as [K|K].
    - rewrite cshr_ok by (rewrite iw_prom_uint by assumption; unfold pw; lia). cbn [bind].
      unfold HOLDER_MSB. rewrite <- Z.pow_sub_r by lia.
      pose proof (pow2_mono (cH c - 1 - - k) (cH c - 1) ltac:(lia)).
      pow_pos 2 (cH c - 1 - - k).
      assert (2 ^ cH c = 2 * 2 ^ (cH c - 1))
        by (replace (cH c) with ((cH c - 1) + 1) at 1 by lia; apply pow2_S; lia).
      eexists. split; [reflexivity|]. rewrite cast_u_small by lia. rewrite div_div2 by lia.
      rewrite <- Z.pow_sub_r by lia. unfold base. destruct (Z.leb_spec 0 k); [lia|]. f_equal. lia.
    - assert (PMv : P_MASK c = 2 ^ cN c - 1).
      { unfold P_MASK, P_MSB, cor. pow_pos 2 (cN c - 1).
        rewrite <- (Z.mul_1_l (2 ^ (cN c - 1))) at 2. rewrite lor_add by lia. lia. }
      rewrite PMv. unfold HOLDER_SIZE.
      destruct (cshl_u (cH c) (2 ^ cN c - 1) (cH c - (k + 1))) as [r [E1 E2]];
        try assumption; try (unfold pw; lia).
      rewrite E1. cbn [bind]. rewrite E2. eexists. split; [reflexivity|]. rewrite div_div2 by lia.
      set (u := cH c - (k + 1)).
      assert (M : ((2 ^ cN c - 1) * 2 ^ u) mod 2 ^ cH c = 2 ^ cH c - 2 ^ u).
      { symmetry. apply (Z.mod_unique _ _ (2 ^ (cN c - k - 1) - 1)).
        - left. pow_pos 2 u. pose proof (pow2_mono u (cH c) ltac:(lia)). lia.
        - assert (2 ^ cH c * 2 ^ (cN c - k - 1) = 2 ^ cN c * 2 ^ u)
            by (rewrite <- !Z.pow_add_r by lia; f_equal; lia). lia. }
      rewrite M. unfold base. destruct (Z.leb_spec 0 k); [|lia].
      symmetry. apply (Z.div_unique _ _ _ 0).
      + left. pow_pos 2 (1 + (cH c - cN c)). lia.
      + rewrite Z.add_0_r, Z.mul_sub_distr_l, <- !Z.pow_add_r by lia.
        replace (1 + (cH c - cN c) + (cN c - 1)) with (cH c) by lia.
        replace (1 + (cH c - cN c) + (cN c - 2 - k)) with u by lia. reflexivity. }
  destruct RB as [rb [RB1 RB2]]. fold (tU c) in RB1 |- *. rewrite RB1. cbn [bind]. clear RB1.
  (* exponent bits *)
  assert (ME : msb_exp c e = Ok (e * 2 ^ (cH c - ces c))).
  { unfold msb_exp. destruct (Z.eqb_spec (ces c) 0) as [Z0|Z0].
    - rewrite Z0 in *. assert (e = 0) by lia. subst e. reflexivity.
    - unfold tU, HOLDER_SIZE.
      pow_pos 2 (cH c - ces c).
      assert (2 ^ (cH c - ces c) * 2 ^ ces c = 2 ^ cH c)
        by (rewrite <- Z.pow_add_r by lia; f_equal; lia).
      pose proof (pow2_mono (ces c) (cH c) ltac:(lia)).
      destruct (cshl_u_exact (cH c) e (cH c - ces c)) as [r [E1 E2]];
        try assumption; try (unfold pw; lia); [nia|].
      rewrite E1. cbn [bind]. rewrite E2. reflexivity. }
  rewrite ME. cbn [bind]. clear ME.
  unfold packable. fold s. fold es'.
  replace (s + 2 + es' + 1) with (s + 3 + es') by lia. replace (s + 2 + 1) with (s + 3) by lia.
  assert (EP : -1 <= es') by lia.
  destruct (Z.ltb_spec (s + 3 + es') (pw (cH c))) as [L1|L1].
  2: { rewrite andb_false_r. unfold tU.
       rewrite cshr_ub by (rewrite iw_prom_uint by assumption; lia). reflexivity. }
  unfold tU. rewrite cshr_ok by (rewrite iw_prom_uint by assumption; lia). cbn [bind].
  destruct (Z.ltb_spec (s + 3) (pw (cH c))) as [L2|L2].
  2: { rewrite cshr_ub by (rewrite iw_prom_uint by assumption; lia). reflexivity. }
  rewrite cshr_ok by (rewrite iw_prom_uint by assumption; lia). cbn [bind andb].
  rewrite cshr_ok by (rewrite iw_prom_uint by assumption; unfold pw; lia). cbn [bind].
  rewrite cshr_ok by (rewrite iw_prom_uint by assumption; unfold pw; lia). cbn [bind].
  unfold cor. rewrite !lor_div by lia. rewrite RB2. clear RB2 rb.
  rewrite !div_div2 by lia.
  set (m := cN c - 3 - s - ces c).
  set (A := (e * 2 ^ cH c + f) / 2 ^ (cH c - m)).
  assert (HA : Z.lor (f / 2 ^ (s + 3 + es' + (cH c - cN c)))
                 (e * 2 ^ (cH c - ces c) / 2 ^ (s + 3 + (cH c - cN c))) = A).
  { destruct (Z_le_gt_dec 0 m) as [M|M].
    - assert (E' : es' = ces c) by lia. rewrite E'.
      replace (s + 3 + ces c + (cH c - cN c)) with (cH c - m) by lia.
      pow_pos 2 (cH c - m). pow_pos 2 m.
      assert (EM : 2 ^ (cH c - m) * 2 ^ m = 2 ^ cH c) by (rewrite <- Z.pow_add_r by lia; f_equal; lia).
      assert (EE : e * 2 ^ (cH c - ces c) / 2 ^ (s + 3 + (cH c - cN c)) = e * 2 ^ m).
      { replace (cH c - ces c) with (m + (s + 3 + (cH c - cN c))) by lia.
        rewrite Z.pow_add_r, Z.mul_assoc by lia. apply Z.div_mul. pow_pos 2 (s + 3 + (cH c - cN c)). lia. }
      rewrite EE. rewrite lor_add.
      + unfold A. rewrite <- EM. replace (e * (2 ^ (cH c - m) * 2 ^ m) + f)
          with (f + e * 2 ^ m * 2 ^ (cH c - m)) by ring.
        rewrite Z.div_add by lia. reflexivity.
      + lia.
      + split; [apply Z.div_pos; lia|apply Z.div_lt_upper_bound; lia].
    - assert (E' : es' = cN c - 3 - s) by lia. rewrite E'.
      replace (s + 3 + (cN c - 3 - s) + (cH c - cN c)) with (cH c) by lia.
      rewrite Z.div_small by lia. rewrite Z.lor_0_l.
      unfold A. replace (cH c - m) with (cH c + - m) by lia.
      rewrite <- (div_div2 (e * 2 ^ cH c + f)) by lia.
      rewrite (Z.add_comm (e * 2 ^ cH c) f), Z.div_add, (Z.div_small f) by lia. rewrite Z.add_0_l.
      replace (s + 3 + (cH c - cN c)) with (- m + (cH c - ces c)) by lia.
      rewrite Z.pow_add_r by lia. pow_pos 2 (cH c - ces c). pow_pos 2 (- m).
      apply Z.div_mul_cancel_r; lia. }
  rewrite HA.
  set (y := ((k * 2 ^ ces c + e) * 2 ^ cH c + f) / 2 ^ (cH c - G)).
  assert (EG : 2 ^ (cH c - G) * 2 ^ G = 2 ^ cH c) by (rewrite <- Z.pow_add_r by lia; f_equal; lia).
  assert (EG3 : 2 ^ ces c * 2 ^ G = 2 ^ (cN c - 3)) by (rewrite <- Z.pow_add_r by lia; f_equal; lia).
  pow_pos 2 (cH c - G). pow_pos 2 G.
  set (t := (e * 2 ^ cH c + f) / 2 ^ (cH c - G)).
  assert (HT : 0 <= t < 2 ^ (cN c - 3)).
  { pose proof (ef_bound _ _ _ _ He Hf).
    unfold t. split; [apply Z.div_pos; lia|apply Z.div_lt_upper_bound; [lia|]].
    rewrite <- EG3. replace (2 ^ (cH c - G) * (2 ^ ces c * 2 ^ G)) with (2 ^ ces c * 2 ^ cH c)
      by (rewrite <- EG; ring). lia. }
  assert (HY : y = k * 2 ^ (cN c - 3) + t).
  { unfold y, t. replace ((k * 2 ^ ces c + e) * 2 ^ cH c + f)
      with ((e * 2 ^ cH c + f) + (k * 2 ^ (cN c - 3)) * 2 ^ (cH c - G)).
    - rewrite Z.div_add by lia. lia.
    - rewrite <- EG3, <- EG. ring. }
  assert (HAT : A = t / 2 ^ s).
  { unfold A, t. rewrite div_div2 by lia. f_equal. f_equal. lia. }
  assert (KD : y / 2 ^ (cN c - 3) = k) by (rewrite HY; apply kt_div; assumption).
  assert (KM : y mod 2 ^ (cN c - 3) = t) by (rewrite HY; apply kt_mod; assumption).
  assert (HP : ppk (cN c) y = base (cN c) k + A) by (unfold ppk; rewrite KD, KM, HAT; reflexivity).
  pose proof (tdiv_cnt (cN c) BN k t R HT) as TC. fold s in TC. rewrite <- HAT in TC.
  assert (LO : Z.lor A (base (cN c) k) = ppk (cN c) y).
  { rewrite HP. unfold cnt in TC. destruct (Z.eqb_spec k (cN c - 2)) as [K|K].
    - assert (A0 : A = 0) by lia. rewrite A0, Z.lor_0_l. lia.
    - destruct (base_mult (cN c) k BN R K) as [b B]. rewrite B. fold s in TC |- *.
      rewrite lor_add by (try apply TC; specialize (S1 K); lia). lia. }
  rewrite LO.
  assert (YR : yrange (cN c) y) by (unfold yrange; rewrite KD; exact R).
  pose proof (ppk_bounds (cN c) BN y YR) as PB.
  rewrite cast_s_small by lia.
  destruct neg; cbn [sg]; [|reflexivity].
  rewrite arith_ps by (assumption || lia). cbn [bind]. f_equal.
  unfold deep, tS. apply cast_s_small; lia.
Qed.

Lemma maxexponent_spec c : valid_cfg c -> exp_ok c -> maxexponent c = Ok (maxk c * 2 ^ ces c).
Proof.
  intros V X. vcb V. destruct (emax_bound c V) as [M1 M2].
  pose proof (is_width_pos _ (c_E_width c V)) as BE.
  unfold maxexponent, REG_SCALE. rewrite common_S_int by assumption.
  change (if is_naninf c then cN c - 3 else cN c - 2) with (maxk c). assert (MK : 0 <= maxk c <= cN c - 2) by (unfold maxk; destruct (spec_eqb (csp c) WithNanInf); lia).
  unfold cmul. pow_pos 2 (ces c). unfold emax in *.
  rewrite (Z.mul_comm (2 ^ ces c)).
  pose proof (mul_mono0 (maxk c) (cN c - 2) (2 ^ ces c) MK ltac:(lia)) as MM.
  rewrite arith_s.
  - cbn [bind]. unfold tE. rewrite cast_s_small by lia. reflexivity.
  - unfold pw; lia.
  - split; [pose proof (pw_ge (cH c)); change (2 ^ 31) with 2147483648 in *; lia|]. clear M2.
    destruct (vc_H _ V) as [W|[W|[W|W]]].
    + rewrite W. change (pw 8 - 1) with 31.
      assert (2 ^ ces c <= 2 ^ 5) by (apply pow2_mono; lia). change (2 ^ 5) with 32 in *. 
      change (2 ^ 31) with 2147483648. nia.
    + rewrite W. change (pw 16 - 1) with 31.
      assert (2 ^ ces c <= 2 ^ 13) by (apply pow2_mono; lia). change (2 ^ 13) with 8192 in *. 
      change (2 ^ 31) with 2147483648. nia.
    + rewrite W. change (pw 32 - 1) with 31. specialize (X W). lia.
    + rewrite W. change (pw 64 - 1) with 63.
      assert (2 ^ ces c <= 2 ^ 30) by (apply pow2_mono; lia).
      change (2 ^ 63) with (2 ^ 30 * 2 ^ 33). assert (64 < 2 ^ 33) by reflexivity. nia.
Qed.

Lemma minexponent_spec c : valid_cfg c -> minexponent c = Ok (- emax c).
Proof.
  intros V. vcb V. destruct (emax_bound c V) as [M1 M2].
  pose proof (is_width_pos _ (c_E_width c V)) as BE. pose proof (pwE_le c V) as PE.
  unfold minexponent, REG_SCALE, emax in *. pow_pos 2 (ces c).
  pose proof (le_mul_l (2 ^ ces c) (cN c - 2) ltac:(lia) ltac:(lia)) as KF.
  rewrite (Z.mul_comm (2 ^ ces c) (cN c - 2)) in KF.
  assert (C : cast (tE c) (2 ^ ces c) = 2 ^ ces c) by (unfold tE; apply cast_s_small; lia).
  rewrite C. unfold cneg, cmul, tE. rewrite arith_ps by (apply c_E_width, V || lia). cbn [bind].
  fold (tE c). rewrite common_E_int by assumption.
  replace (- 2 ^ ces c * (cN c - 2)) with (- ((cN c - 2) * 2 ^ ces c)) by ring.
  rewrite arith_s by (unfold pw in *; lia). cbn [bind]. unfold tE.
  rewrite cast_s_small by lia. reflexivity.
Qed.

Lemma split_spec c e : valid_cfg c -> - emax c <= e <= emax c ->
  split_reg_exp c e = Ok (e / 2 ^ ces c, e mod 2 ^ ces c).
Proof.
  intros V E. vcb V. destruct (emax_bound c V) as [M1 M2]. unfold emax in *.
  pose proof (is_width_pos _ (c_E_width c V)) as BE. pow_pos 2 (ces c).
  assert (EE : ces c < c_E c).
  { unfold c_E. rewrite Z.geb_leb. destruct (Z.leb_spec (cH c) (cN c + ces c)); lia. }
  unfold split_reg_exp, tE. rewrite cshr_ok.
  2: { rewrite prom_sint by apply c_E_width, V. cbn [iw sint]. unfold pw. lia. }
  cbn [bind]. f_equal. f_equal.
  - unfold tS. apply cast_s_small; [lia|].
    assert (- (cN c - 2) <= e / 2 ^ ces c) by (apply Z.div_le_lower_bound; lia).
    assert (e / 2 ^ ces c <= cN c - 2) by (apply Z.div_le_upper_bound; lia).
    pose proof (Z.pow_gt_lin_r 2 (cH c - 1) ltac:(lia) ltac:(lia)). lia.
  - unfold cand, ESP_MASK. rewrite land_ones' by lia. unfold tU. apply cast_u_small.
    pose proof (Z.mod_pos_bound e (2 ^ ces c) ltac:(lia)).
    pose proof (pow2_mono (ces c) (cH c) ltac:(lia)). lia.
Qed.

Lemma clamp_bounds v lo hi : lo <= hi -> lo <= clamp v lo hi <= hi.
Proof.
  intros. unfold clamp. rewrite Z.gtb_ltb.
  destruct (Z.ltb_spec v lo), (Z.ltb_spec hi v); lia.
Qed.

(** Exponent after saturation. *)
Definition eclamp (c : cfg) (e : Z) : Z := clamp e (- emax c) (maxk c * 2 ^ ces c).

Lemma eclamp_range c e : valid_cfg c -> - emax c <= eclamp c e <= maxk c * 2 ^ ces c
  /\ maxk c * 2 ^ ces c <= emax c.
Proof.
  intros V. vcb V. pow_pos 2 (ces c). unfold eclamp.
  assert (MK : 0 <= maxk c <= cN c - 2) by (unfold maxk; destruct (spec_eqb (csp c) WithNanInf); lia).
  assert (maxk c * 2 ^ ces c <= emax c) by (unfold emax; nia).
  assert (- emax c <= maxk c * 2 ^ ces c) by (unfold emax in *; nia).
  split; [apply clamp_bounds|]; assumption.
Qed.

Lemma pack_posit_spec c neg e f : valid_cfg c -> exp_ok c -> 0 <= f < 2 ^ cF c ->
  pack_posit c (U Regular neg e f) =
    if packable c (eclamp c e / 2 ^ ces c)
    then Ok (sg neg (ppk (cN c) (ycoord c (eclamp c e) f)))
    else UB ShiftCount.
Proof.
  intros V X Hf. vcb V. destruct (eclamp_range c e V) as [C1 C2].
  unfold pack_posit, unpacked_full2low. cbn [utyp uneg uexp ufrac].
  rewrite minexponent_spec, maxexponent_spec by assumption. cbn [bind].
  fold (eclamp c e). set (ec := eclamp c e) in *.
  rewrite split_spec by (assumption || lia). cbn [bind fst snd].
  destruct (cast_msb_spec (cF c) (cH c) f (vc_F _ V) (vc_H _ V) Hf) as [f' [F1 [F2 F3]]].
  rewrite F1. cbn [bind]. unfold ul_mk.
  pow_pos 2 (ces c).
  assert (K1 : - (cN c - 2) <= ec / 2 ^ ces c) by (apply Z.div_le_lower_bound; unfold emax in *; lia).
  assert (K2 : ec / 2 ^ ces c <= cN c - 2) by (apply Z.div_le_upper_bound; unfold emax in *; lia).
  pose proof (Z.pow_gt_lin_r 2 (cH c - 1) ltac:(lia) ltac:(lia)).
  pose proof (Z.mod_pos_bound ec (2 ^ ces c) ltac:(lia)).
  pose proof (pow2_mono (ces c) (cH c) ltac:(lia)).
  unfold tS, tU. rewrite cast_s_small, !cast_u_small by lia.
  rewrite pack_low_spec by (assumption || unfold inreg; lia).
  destruct (packable c (ec / 2 ^ ces c)); [|reflexivity].
  f_equal. f_equal. f_equal. unfold ycoord.
  pose proof (Z.div_mod ec (2 ^ ces c) ltac:(lia)) as DM.
  replace (ec / 2 ^ ces c * 2 ^ ces c + ec mod 2 ^ ces c) with ec by lia.
  rewrite F2. set (G := gran c) in *. assert (HG : G = cN c - 3 - ces c) by reflexivity.
  pow_pos 2 (cF c). pow_pos 2 (cH c). pow_pos 2 (cH c - G). pow_pos 2 G.
  replace (ec * 2 ^ cH c + f * 2 ^ cH c / 2 ^ cF c) with ((ec * 2 ^ cF c + f) * 2 ^ cH c / 2 ^ cF c).
  2: { replace ((ec * 2 ^ cF c + f) * 2 ^ cH c) with (f * 2 ^ cH c + ec * 2 ^ cH c * 2 ^ cF c) by ring.
       rewrite Z.div_add by lia. lia. }
  rewrite Z.div_div by lia.
  assert (EG : 2 ^ (cH c - G) * 2 ^ G = 2 ^ cH c) by (rewrite <- Z.pow_add_r by lia; f_equal; lia).
  rewrite <- EG.
  replace ((ec * 2 ^ cF c + f) * (2 ^ (cH c - G) * 2 ^ G)) with ((ec * 2 ^ cF c + f) * 2 ^ G * 2 ^ (cH c - G)) by ring.
  apply Z.div_mul_cancel_r; lia.
Qed.

(** Configurations where no shift count of pack can reach the width of the promoted type. *)

Lemma roomy_packable c k : valid_cfg c -> roomy c -> inreg (cN c) k -> packable c k = true.
Proof.
  intros V Rm K. vcb V. destruct (sft_bound (cN c) BN k K) as [S0 [S1 S2]].
  unfold packable, roomy, pw in *. apply andb_true_intro. split; apply Z.ltb_lt; lia.
Qed.

Lemma eclamp_inreg c e : valid_cfg c -> inreg (cN c) (eclamp c e / 2 ^ ces c).
Proof.
  intros V. vcb V. destruct (eclamp_range c e V) as [C1 C2]. pow_pos 2 (ces c).
  unfold inreg, emax in *. split; [apply Z.div_le_lower_bound|apply Z.div_le_upper_bound]; lia.
Qed.

Lemma roomy_exp_ok c : valid_cfg c -> cH c <> 32 -> exp_ok c.
Proof. unfold exp_ok. intros. contradiction. Qed.

(** What pack selects, in coordinates. *)
Definition selects (c : cfg) (y v : Z) : Prop :=
  1 <= v <= maxreal c /\ (pdec (cN c) v <= y \/ v = 1) /\ (v = maxreal c \/ y < pdec (cN c) (v + 1)).

Lemma ycoord_bounds c e f : valid_cfg c -> 0 <= f < 2 ^ cF c ->
  e * 2 ^ gran c <= ycoord c e f < (e + 1) * 2 ^ gran c.
Proof.
  intros V Hf. vcb V. unfold ycoord. set (G := gran c).
  assert (HG : G = cN c - 3 - ces c) by reflexivity. pow_pos 2 (cF c). pow_pos 2 G.
  split; [apply Z.div_le_lower_bound|apply Z.div_lt_upper_bound]; nia.
Qed.

Lemma pack_selects c neg e f r : valid_cfg c -> exp_ok c -> 0 <= f < 2 ^ cF c ->
  pack_posit c (U Regular neg e f) = Ok r ->
  exists v, r = sg neg v /\ selects c (ycoord c e f) v.
Proof.
  intros V X Hf. rewrite pack_posit_spec by assumption.
  destruct (packable _ _); [|discriminate]. intros [= <-]. vcb V.
  exists (ppk (cN c) (ycoord c (eclamp c e) f)). split; [reflexivity|].
  set (G := gran c) in *. assert (HG : G = cN c - 3 - ces c) by reflexivity.
  pow_pos 2 G. pow_pos 2 (ces c).
  assert (EG3 : 2 ^ ces c * 2 ^ G = 2 ^ (cN c - 3)) by (rewrite <- Z.pow_add_r by lia; f_equal; lia).
  pose proof (ycoord_bounds c (eclamp c e) f V Hf) as YC. fold G in YC.
  pose proof (ycoord_bounds c e f V Hf) as YE. fold G in YE.
  pose proof (eclamp_inreg c e V) as KI.
  set (yc := ycoord c (eclamp c e) f) in *.
  assert (KD : yc / 2 ^ (cN c - 3) = eclamp c e / 2 ^ ces c).
  { rewrite <- EG3. replace (2 ^ ces c * 2 ^ G) with (2 ^ G * 2 ^ ces c) by ring.
    rewrite <- Z.div_div by lia. f_equal.
    symmetry. apply (Z.div_unique _ _ _ (yc - 2 ^ G * eclamp c e)); [left|]; lia. }
  assert (YR : yrange (cN c) yc) by (unfold yrange; rewrite KD; exact KI).
  pose proof (ppk_bounds (cN c) BN yc YR) as PB.
  destruct (eclamp_range c e V) as [C1 C2].
  assert (PMAX : pdec (cN c) (maxreal c) = maxk c * 2 ^ ces c * 2 ^ G).
  { rewrite <- Z.mul_assoc, EG3. unfold maxreal, maxk, is_naninf.
    destruct (csp c); cbn [spec_eqb]; auto using pdec_last, pdec_last2. }
  assert (PMIN : pdec (cN c) 1 = - emax c * 2 ^ G).
  { rewrite pdec_first by assumption. unfold emax. rewrite <- EG3. ring. }
  pose proof (maxreal_bounds c BN Bes) as MB.
  assert (E4 : 4 <= 2 ^ (cN c - 1)) by (change 4 with (2 ^ 2); apply pow2_mono; lia).
  assert (VM : ppk (cN c) yc <= maxreal c).
  { destruct (Z_le_gt_dec (ppk (cN c) yc) (maxreal c)) as [|L]; [assumption|exfalso].
    assert (CS : csp c = WithNanInf) by (unfold maxreal in L; destruct (csp c); [exfalso; lia|exfalso; lia|reflexivity]).
    assert (LL : 2 ^ (cN c - 1) - 1 <= ppk (cN c) yc) by (unfold maxreal in L; rewrite CS in L; lia).
    apply galois in LL; [|assumption|lia|assumption]. rewrite pdec_last in LL by assumption.
    unfold maxk, is_naninf in C1. rewrite CS in C1. cbn [spec_eqb] in C1. 
    rewrite <- EG3 in LL. nia. }
  split; [lia|].
  assert (GAL : pdec (cN c) (ppk (cN c) yc) <= yc) by (apply galois; [assumption|lia|assumption|lia]).
  assert (GAU : ppk (cN c) yc = maxreal c \/ yc < pdec (cN c) (ppk (cN c) yc + 1)).
  { destruct (Z.eq_dec (ppk (cN c) yc) (maxreal c)) as [|NE]; [left; assumption|right].
    destruct (Z_lt_le_dec yc (pdec (cN c) (ppk (cN c) yc + 1))) as [|L]; [assumption|exfalso].
    apply galois in L; [lia|assumption|lia|assumption]. }
  destruct (Z_lt_le_dec e (- emax c)) as [LO|LO].
  - (* below the range *)
    assert (EC : eclamp c e = - emax c).
    { unfold eclamp, clamp. destruct (Z.ltb_spec e (- emax c)); [reflexivity|lia]. }
    assert (V1 : ppk (cN c) yc = 1).
    { destruct (Z.eq_dec (ppk (cN c) yc) 1) as [|NE]; [assumption|exfalso].
      assert (L2 : 2 <= ppk (cN c) yc) by lia.
      apply galois in L2; [|assumption|lia|assumption].
      assert (pdec (cN c) 2 = - emax c * 2 ^ G + 2 ^ (cN c - 3)).
      { unfold pdec. destruct (Z.eq_dec (cN c) 3) as [N3|N3].
        - rewrite N3. replace (- emax c * 2 ^ G + 2 ^ (3 - 3)) with 0.
          + reflexivity.
          + unfold emax. assert (ces c = 0) by lia. assert (G = 0) by lia. rewrite H1, H2, N3. reflexivity.
        - assert (RG : reg (cN c) 2 = - (cN c - 2) + 1).
          { apply reg_unique; [assumption|unfold inreg; lia|].
            rewrite base_next, base_first by (unfold inreg; lia).
            unfold cnt, sft.
            destruct (Z.eqb_spec (- (cN c - 2)) (cN c - 2)); [lia|].
            destruct (Z.leb_spec 0 (- (cN c - 2))); [lia|].
            replace (cN c - 3 - (- - (cN c - 2) - 1)) with 0 by lia.
            destruct (Z.eqb_spec (- (cN c - 2) + 1) (cN c - 2)); [lia|].
            destruct (Z.leb_spec 0 (- (cN c - 2) + 1)); [lia|].
            replace (cN c - 3 - (- (- (cN c - 2) + 1) - 1)) with 1 by lia. lia. }
          rewrite RG. replace (base (cN c) (- (cN c - 2) + 1)) with 2.
          + unfold emax. rewrite <- EG3. ring.
          + rewrite base_next, base_first by (unfold inreg; lia). unfold cnt, sft.
            destruct (Z.eqb_spec (- (cN c - 2)) (cN c - 2)); [lia|].
            destruct (Z.leb_spec 0 (- (cN c - 2))); [lia|].
            replace (cN c - 3 - (- - (cN c - 2) - 1)) with 0 by lia. reflexivity. }
      rewrite EC in YC. rewrite H1 in L2.
      pose proof (pow2_mono G (cN c - 3) ltac:(lia)). lia. }
    rewrite V1 in *. split; [right; reflexivity|].
    destruct GAU as [GA|GA]; [left; assumption|right].
    assert (P12 : pdec (cN c) 1 < pdec (cN c) 2) by (apply pdec_lt; lia).
    change (1 + 1) with 2. rewrite PMIN in P12. nia.
  - destruct (Z_le_gt_dec e (maxk c * 2 ^ ces c)) as [HI|HI].
    + (* in range *)
      assert (EC : eclamp c e = e).
      { unfold eclamp, clamp. rewrite Z.gtb_ltb.
        destruct (Z.ltb_spec e (- emax c)), (Z.ltb_spec (maxk c * 2 ^ ces c) e); lia. }
      assert (YE' : ycoord c e f = yc) by (unfold yc; rewrite EC; reflexivity).
      rewrite YE'. split; [left; assumption|exact GAU].
    + assert (EC : eclamp c e = maxk c * 2 ^ ces c).
      { unfold eclamp, clamp. rewrite Z.gtb_ltb.
        destruct (Z.ltb_spec e (- emax c)), (Z.ltb_spec (maxk c * 2 ^ ces c) e); lia. }
      assert (VE : ppk (cN c) yc = maxreal c).
      { apply Z.le_antisymm; [assumption|]. apply galois; [assumption|lia|assumption|].
        rewrite PMAX. rewrite EC in YC. lia. }
      rewrite VE in *. split; [left; rewrite PMAX; nia|left; reflexivity].
Qed.

Lemma pack_defined c neg e f : valid_cfg c -> exp_ok c -> roomy c -> 0 <= f < 2 ^ cF c ->
  exists r, pack_posit c (U Regular neg e f) = Ok r.
Proof.
  intros V X Rm Hf. rewrite pack_posit_spec by assumption.
  rewrite roomy_packable by (assumption || now apply eclamp_inreg). eauto.
Qed.

(** Selecting by a coordinate is truncation of every number of that cell. *)
Definition sgq (neg : bool) (x : Q) : Q := if neg then Qopp x else x.

Lemma pack_rounds c neg e f r x : valid_cfg c -> exp_ok c -> 0 <= f < 2 ^ cF c ->
  (lval (gran c) (ycoord c e f) <= x)%Q -> (x < lval (gran c) (ycoord c e f + 1))%Q ->
  pack_posit c (U Regular neg e f) = Ok r ->
  rounds_tz c (sgq neg x) r.
Proof.
  intros V X Hf L U P. vcb V. destruct (pack_selects c neg e f r V X Hf P) as [v [-> [S1 [S2 S3]]]].
  pose proof (gran_nonneg c BN Bes).
  pose proof (lval_pos (gran c) (ycoord c e f) ltac:(assumption)) as LP.
  assert (D : down_pos c x v) by (eapply trunc_coord; eassumption).
  destruct neg; cbn [sg sgq].
  - right. right. split; [lra|]. apply (down_pos_comp c BN Bes x); [ring|].
    replace (- - v) with v by lia. assumption.
  - right. left. split; [lra|assumption].
Qed.
