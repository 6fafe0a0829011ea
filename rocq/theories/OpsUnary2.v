(** half of the smallest posit, twice of the largest, inv, next, prev, abs, pack after unpack. *)
From Coq Require Import ZArith QArith Qabs Lia Lqa Bool List.
From Verif Require Import Res CInt Bits Traits Unpacked Cfg Posit Spec QPow Core SpecLemmas Arith
  DecodeProof EncodeProof UOps UAdd Ops OpsAdd OpsUnary.
Open Scope Z_scope.

Lemma small_arith c z : valid_cfg c -> -100 <= z <= 100 -> arith (prom (tS c)) z = Ok z.
Proof.
  intros V Z. unfold tS. apply arith_ps; [apply vc_H; assumption|].
  pose proof (pw_ge (cH c)). assert (2 ^ 31 = 2147483648) by reflexivity. lia.
Qed.

Lemma msb_exp_val c e : valid_cfg c -> 0 <= e < 2 ^ ces c ->
  exists m, msb_exp c e = Ok m /\ 0 <= m < 2 ^ cH c.
Proof.
  intros V E. vcb V. unfold msb_exp. pow_pos 2 (cH c). destruct (Z.eqb_spec (ces c) 0).
  - exists 0. split; [reflexivity|lia].
  - destruct (cshl_u (cH c) e (HOLDER_SIZE c - ces c)) as [r [E1 E2]];
      try (unfold HOLDER_SIZE, pw; lia); try apply (vc_H _ V).
    + pose proof (pow2_mono (ces c) (cH c)). lia.
    + unfold tU. rewrite E1. cbn [bind]. eexists. split; [reflexivity|].
      rewrite E2. apply Z.mod_pos_bound. lia.
Qed.

(** Packing just below the smallest regime gives 0. *)
Lemma pack_low_bottom c neg e r : valid_cfg c -> 0 <= e < 2 ^ ces c ->
  pack_low c (UL Regular neg (- (cN c - 1)) e 0) = Ok r -> r = 0.
Proof.
  intros V E P. vcb V. unfold pack_low in P. cbn [ltyp lneg lreg lexp lfrac] in P.
  unfold cneg, cadd, csub in P.
  rewrite small_arith in P by (assumption || lia). cbn [bind] in P.
  rewrite small_arith in P by (assumption || lia). cbn [bind] in P.
  rewrite small_arith in P by (assumption || lia). cbn [bind] in P.
  replace (- - (cN c - 1)) with (cN c - 1) in P by lia.
  replace (cN c - 1 + 1) with (cN c) in P by lia.
  rewrite Z.gtb_ltb in P. destruct (Z.ltb_spec (- (cN c - 1) + 2) (cN c)); [|lia].
  rewrite small_arith in P by (assumption || lia). cbn [bind] in P.
  rewrite small_arith in P by (assumption || lia). cbn [bind] in P.
  destruct (Z.ltb_spec (cN c - cN c - 1) (ces c)); [|lia].
  replace (cN c - cN c - 1) with (-1) in P by lia.
  destruct (Z.ltb_spec (- (cN c - 1)) 0); [|lia].
  assert (IW : iw (prom (uint (cH c))) = pw (cH c)) by (apply iw_prom_uint, vc_H; assumption).
  unfold tU in P.
  rewrite cshr_ok in P by (rewrite IW; unfold pw; lia). cbn [bind] in P.
  unfold HOLDER_MSB in P. rewrite <- Z.pow_sub_r in P by lia.
  replace (cH c - 1 - (cN c - 1)) with (cH c - cN c) in P by lia.
  pow_pos 2 (cH c). pow_pos 2 (cH c - cN c). pose proof (pow2_mono (cH c - cN c) (cH c)).
  rewrite cast_u_small in P.
  2: { split; [lia|]. apply Z.pow_lt_mono_r; lia. }
  destruct (msb_exp_val c e V E) as [m [Em Hm]]. rewrite Em in P. cbn [bind] in P.
  replace (cN c + -1 + 1) with (cN c) in P by lia.
  destruct (Z_lt_le_dec (cN c) (pw (cH c))) as [L1|L1].
  2: { rewrite cshr_ub in P by lia. discriminate. }
  rewrite cshr_ok in P by lia. cbn [bind] in P.
  destruct (Z_lt_le_dec (cN c + 1) (pw (cH c))) as [L2|L2].
  2: { rewrite cshr_ub in P by lia. discriminate. }
  rewrite cshr_ok in P by lia. cbn [bind] in P.
  rewrite cshr_ok in P by (rewrite IW; unfold pw; lia). cbn [bind] in P.
  rewrite cshr_ok in P by (rewrite IW; unfold pw; lia). cbn [bind] in P.
  assert (Z0 : cor (cor (0 / 2 ^ cN c) (m / 2 ^ (cN c + 1))) (2 ^ (cH c - cN c) / 2 ^ 1) / 2 ^ (cH c - cN c) = 0).
  { unfold cor. rewrite !lor_div by lia. pow_pos 2 (cN c). rewrite Z.div_0_l by lia.
    rewrite div_div2 by lia. rewrite (Z.div_small m).
    - rewrite div_div2 by lia. rewrite (Z.div_small (2 ^ (cH c - cN c))); [reflexivity|].
      split; [lia|]. apply Z.pow_lt_mono_r; lia.
    - split; [lia|]. apply Z.lt_le_trans with (2 ^ cH c); [lia|]. apply pow2_mono. lia. }
  rewrite Z0 in P. assert (C0 : cast (tS c) 0 = 0) by (unfold tS; apply cast_s_small; pow_pos 2 (cH c - 1); lia).
  rewrite C0 in P. rewrite small_arith in P by (assumption || lia). cbn [bind] in P. unfold deep in P.
  rewrite Z.opp_0, C0 in P. destruct neg; injection P as <-; reflexivity.
Qed.

Lemma reg_1 c : valid_cfg c -> forall p, 1 <= p < 2 ^ (cN c - 1) -> reg (cN c) p = - (cN c - 2) -> p = 1.
Proof.
  intros V p P R. vcb V. destruct (reg_spec (cN c) BN p P) as [_ B]. rewrite R in B.
  rewrite base_first in B by assumption. unfold cnt in B.
  destruct (Z.eqb_spec (- (cN c - 2)) (cN c - 2)); [lia|].
  unfold sft in B. destruct (Z.leb_spec 0 (- (cN c - 2))); [lia|].
  replace (cN c - 3 - (- - (cN c - 2) - 1)) with 0 in B by lia. change (2 ^ 0) with 1 in B. lia.
Qed.

Lemma unpack_low_1 c s : valid_cfg c -> s = 1 \/ s = -1 ->
  unpack_low c s = Ok (UL Regular (s <? 0) (- (cN c - 2)) 0 0).
Proof.
  intros V S. vcb V. pose proof (maxreal_bounds c BN Bes) as MB.
  assert (R : real c s) by (unfold real; lia).
  destruct (unpack_low_val c s V R ltac:(lia)) as [k [e [f [U1 [EK [IR [He [Hf [LC [EQ _]]]]]]]]]].
  replace (Z.abs s) with 1 in * by lia. rewrite (pdec_first (cN c) BN) in EQ.
  assert (K : k = - (cN c - 2)).
  { rewrite EK. apply reg_unique; [assumption|unfold inreg; lia|]. rewrite base_first by assumption.
    pose proof (cnt_pos (cN c) BN (- (cN c - 2)) ltac:(unfold inreg; lia)). lia. }
  assert (HG : gran c = cN c - 3 - ces c) by reflexivity.
  replace (- (cN c - 2) * 2 ^ (cN c - 3) * 2 ^ (cH c - gran c)) with (- (cN c - 2) * 2 ^ ces c * 2 ^ cH c) in EQ
      by (rewrite <- !Z.mul_assoc, <- !Z.pow_add_r by lia; do 2 f_equal; lia).
  rewrite K in EQ. assert (Q : e * 2 ^ cH c + f = 0) by lia. pow_pos 2 (cH c).
  assert (e = 0) by nia. subst e. assert (f = 0) by lia. subst f. rewrite U1, K. reflexivity.
Qed.

Lemma p_half_minpos c s r : valid_cfg c -> s = 1 \/ s = -1 -> p_half c s = Ok r -> r = 0.
Proof.
  intros V S P. vcb V. unfold p_half in P. rewrite unpack_low_1 in P by assumption.
  cbn [bind ltyp lexp lreg lneg lfrac Z.eqb] in P. unfold csub in P.
  rewrite small_arith in P by (assumption || lia). cbn [bind] in P.
  rewrite reg_cast in P by (assumption || lia). unfold REG_SCALE in P. pow_pos 2 (ces c).
  rewrite exp_cast in P by (assumption || lia).
  replace (- (cN c - 2) - 1) with (- (cN c - 1)) in P by lia.
  eapply pack_low_bottom; [eassumption| |exact P]. lia.
Qed.

(** Packing just above the largest regime (es=0) saturates at the top pattern. *)
Lemma pack_low_above c neg r : valid_cfg c -> ces c = 0 ->
  pack_low c (UL Regular neg (cN c - 1) 0 0) = Ok r -> r = sg neg (2 ^ (cN c - 1) - 1).
Proof.
  intros V E0 P. vcb V. unfold pack_low in P. cbn [ltyp lneg lreg lexp lfrac] in P.
  unfold cneg, cadd, csub in P.
  rewrite small_arith in P by (assumption || lia). cbn [bind] in P.
  rewrite small_arith in P by (assumption || lia). cbn [bind] in P.
  rewrite small_arith in P by (assumption || lia). cbn [bind] in P.
  rewrite Z.gtb_ltb in P. destruct (Z.ltb_spec (cN c - 1 + 2) (- (cN c - 1) + 1)); [lia|].
  rewrite small_arith in P by (assumption || lia). cbn [bind] in P.
  rewrite small_arith in P by (assumption || lia). cbn [bind] in P.
  rewrite E0 in P.
  destruct (Z.ltb_spec (cN c - (cN c - 1 + 2) - 1) 0); [|lia].
  destruct (Z.ltb_spec (cN c - 1) 0); [lia|].
  pow_pos 2 (cN c - 1). pow_pos 2 (cH c - cN c).
  assert (EN : 2 ^ cN c = 2 * 2 ^ (cN c - 1))
    by (replace (cN c) with ((cN c - 1) + 1) at 1 by lia; apply pow2_S; lia).
  pose proof (pow2_mono (cN c) (cH c) ltac:(lia)) as PMH.
  assert (EHN : 2 ^ cN c * 2 ^ (cH c - cN c) = 2 ^ cH c) by (rewrite <- Z.pow_add_r by lia; f_equal; lia).
  assert (PMv : P_MASK c = 2 ^ cN c - 1).
  { unfold P_MASK, P_MSB, cor.
    rewrite <- (Z.mul_1_l (2 ^ (cN c - 1))) at 2. rewrite lor_add by lia. lia. }
  rewrite PMv in P. unfold HOLDER_SIZE in P.
  destruct (cshl_u_exact (cH c) (2 ^ cN c - 1) (cH c - (cN c - 1 + 1))) as [q [Q1 Q2]];
    try (apply (vc_H _ V)); try (unfold pw; lia).
  { replace (cH c - (cN c - 1 + 1)) with (cH c - cN c) by lia. lia. }
  unfold tU in P. rewrite Q1 in P. cbn [bind] in P. rewrite Q2 in P.
  replace (cH c - (cN c - 1 + 1)) with (cH c - cN c) in P by lia.
  unfold msb_exp in P. rewrite E0 in P. cbn [Z.eqb bind] in P.
  assert (IW : iw (prom (uint (cH c))) = pw (cH c)) by (apply iw_prom_uint, vc_H; assumption).
  replace (cN c - 1 + 2 + (cN c - (cN c - 1 + 2) - 1) + 1) with (cN c) in P by lia.
  destruct (Z_lt_le_dec (cN c + 2) (pw (cH c))) as [L1|L1].
  2: { destruct (Z_lt_le_dec (cN c) (pw (cH c))) as [L0|L0].
       - rewrite cshr_ok in P by lia. cbn [bind] in P. rewrite cshr_ub in P by lia. discriminate.
       - rewrite cshr_ub in P by lia. discriminate. }
  rewrite cshr_ok in P by lia. cbn [bind] in P.
  rewrite cshr_ok in P by lia. cbn [bind] in P.
  rewrite cshr_ok in P by (rewrite IW; unfold pw; lia). cbn [bind] in P.
  rewrite cshr_ok in P by (rewrite IW; unfold pw; lia). cbn [bind] in P.
  rewrite !Z.div_0_l in P by (apply Z.pow_nonzero; lia).
  unfold cor in P. rewrite !Z.lor_0_l in P. rewrite div_div2 in P by lia.
  assert (D : (2 ^ cN c - 1) * 2 ^ (cH c - cN c) / 2 ^ (1 + (cH c - cN c)) = 2 ^ (cN c - 1) - 1).
  { symmetry. apply (Z.div_unique _ _ _ (2 ^ (cH c - cN c))).
    - left. replace (1 + (cH c - cN c)) with ((cH c - cN c) + 1) by lia. rewrite pow2_S by lia. lia.
    - replace (1 + (cH c - cN c)) with ((cH c - cN c) + 1) by lia. rewrite pow2_S by lia. rewrite EN. ring. }
  rewrite D in P. pose proof (pwH_bound c V) as PB. unfold tS in P.
  rewrite cast_s_small in P by lia.
  unfold tS in *. destruct neg.
  - rewrite arith_ps in P by (try apply (vc_H _ V); lia). cbn [bind] in P. unfold deep, tS in P.
    rewrite cast_s_small in P by lia. injection P as <-. reflexivity.
  - injection P as <-. reflexivity.
Qed.

Lemma unpack_low_top c v : valid_cfg c -> ces c = 0 -> real c v -> Z.abs v = maxreal c ->
  unpack_low c v = Ok (UL Regular (v <? 0) (maxk c) 0 0).
Proof.
  intros V E0 R A. vcb V. pose proof (maxreal_bounds c BN Bes) as MB.
  destruct (unpack_low_val c v V R ltac:(lia)) as [k [e [f [U1 [EK [IR [He [Hf [LC [EQ [_ KM]]]]]]]]]]].
  assert (HG : gran c = cN c - 3 - ces c) by reflexivity.
  rewrite E0 in *. change (2 ^ 0) with 1 in *. assert (e = 0) by lia. subst e.
  assert (K : k = maxk c /\ f = 0); [|destruct K as [-> ->]; exact U1].
  assert (PD : pdec (cN c) (Z.abs v) = maxk c * 2 ^ (cN c - 3)).
  { rewrite A. unfold maxreal, maxk. destruct (csp c); cbn [spec_eqb];
      first [apply (pdec_last (cN c) BN)|apply (pdec_last2 (cN c) BN)]. }
  assert (K : k = maxk c).
  { rewrite EK. rewrite <- (proj2 (pdec_range (cN c) BN (Z.abs v) ltac:(lia))). rewrite PD.
    apply Z.div_mul. pow_pos 2 (cN c - 3). lia. }
  split; [assumption|].
  rewrite PD, K in EQ.
  replace (maxk c * 2 ^ (cN c - 3) * 2 ^ (cH c - gran c)) with (maxk c * 2 ^ cH c) in EQ
    by (rewrite <- !Z.mul_assoc, <- !Z.pow_add_r by lia; do 2 f_equal; lia). lia.
Qed.

(** es=0: doubling the largest magnitude. *)
Lemma p_twice_top c v r : valid_cfg c -> ces c = 0 -> real c v -> Z.abs v = maxreal c ->
  p_twice c v = Ok r -> r = sg (v <? 0) (2 ^ (cN c - 1) - 1).
Proof.
  intros V E0 R A P. vcb V. unfold p_twice in P. rewrite unpack_low_top in P by assumption.
  cbn [bind ltyp lexp lreg lneg lfrac] in P. unfold REG_SCALE in P. rewrite E0 in P.
  change (0 =? 2 ^ 0 - 1) with true in P. cbv iota in P. unfold cadd in P.
  assert (MK : cN c - 3 <= maxk c <= cN c - 2) by (unfold maxk; destruct (spec_eqb _ _); lia).
  rewrite small_arith in P by (assumption || lia). cbn [bind] in P.
  rewrite reg_cast in P by (assumption || lia).
  destruct (Z.eq_dec (maxk c) (cN c - 2)) as [E|E].
  - rewrite E in P. replace (cN c - 2 + 1) with (cN c - 1) in P by lia.
    eapply pack_low_above; eassumption.
  - replace (maxk c + 1) with (cN c - 2) in P by lia.
    assert (IR : inreg (cN c) (cN c - 2)) by (unfold inreg; lia).
    pow_pos 2 (cH c). rewrite pack_low_spec in P by (try assumption; rewrite ?E0; change (2 ^ 0) with 1; lia).
    destruct (packable c (cN c - 2)); [|discriminate]. injection P as <-. f_equal.
    rewrite E0. change (2 ^ 0) with 1.
    replace (((cN c - 2) * 1 + 0) * 2 ^ cH c + 0) with ((cN c - 2) * 2 ^ cH c) by ring.
    assert (HG : gran c = cN c - 3 - ces c) by reflexivity.
    replace (2 ^ cH c) with (2 ^ (cN c - 3) * 2 ^ (cH c - gran c)) by (rewrite <- Z.pow_add_r by lia; f_equal; lia).
    rewrite Z.mul_assoc, Z.div_mul by (apply Z.pow_nonzero; lia).
    rewrite <- (pdec_last (cN c) BN). apply ppk_pdec; [assumption|].
    pose proof (pow2_mono 2 (cN c - 1) ltac:(lia)) as P4. change (2 ^ 2) with 4 in P4. lia.
Qed.

(** ** pack after unpack *)
Lemma pack_unpack c v e f n r : valid_cfg c -> exp_ok c -> frac_fits c -> real c v -> v <> 0 ->
  unpack c v = Ok (U Regular n e f) -> pack_posit c (U Regular n e f) = Ok r -> r = v.
Proof.
  intros V X FF R NZ U1 P. vcb V. unfold frac_fits in FF.
  destruct (unpack_real c v 0 V ltac:(lia)) as [e' [f' [U2 [Hf [He [_ Vv]]]]]]; try assumption; [rewrite gran_val; lia|].
  rewrite U1 in U2. injection U2 as -> -> ->.
  apply (rounds_tz_unique c BN Bes (value c v)); [|apply rounds_tz_exact; assumption].
  eapply rounds_tz_comp; try assumption; [symmetry; etransitivity; [exact Vv|apply uval_abs]|].
  eapply (cell_rounds c _ e' f' 0); try eassumption.
  - rewrite gran_val. lia.
  - split; [assumption|]. split; [lia|]. split; [apply Z.mod_1_r|]. split; [apply Qle_refl|].
    unfold uabs. apply dy_lt. change (2 ^ 0) with 1. lia.
Qed.

(** ** inv *)
Definition inv_escapes (c : cfg) (v : Z) : Prop := csp c = WithNanInf /\ (v = 1 \/ v = -1).

Lemma lval_pow2 H E : 0 <= H -> (lval H (E * 2 ^ H) == pow2 E)%Q.
Proof.
  intros HH. pow_pos 2 H. replace (E * 2 ^ H) with (E * 2 ^ H + 0) by lia. rewrite lval_ef by lia.
  replace (2 ^ H + 0) with (1 * 2 ^ H) by lia. rewrite dy_pow by lia. unfold dy.
  replace (E - H + H) with E by lia. ring.
Qed.

(** Fraction zero: the value is a power of two, and so is the packed reciprocal. *)
Lemma p_inv_pow2 c v k e : valid_cfg c -> real c v -> v <> 0 ->
  unpack_low c v = Ok (UL Regular (v <? 0) k e 0) ->
  exists k' e', p_inv c v = pack_low c (UL Regular (v <? 0) k' e' 0) /\ inreg (cN c) k' /\
    0 <= e' < 2 ^ ces c /\ k' * 2 ^ ces c + e' = - (k * 2 ^ ces c + e) /\
    (value c v == sgq (v <? 0) (pow2 (k * 2 ^ ces c + e)))%Q /\
    (~ inv_escapes c v -> ppk (cN c) (lcoord c k' e' 0) <= maxreal c).
Proof.
  intros V R NZ U0. vcb V. pose proof (real_bounds c BN Bes v R) as RB. pose proof (maxreal_bounds c BN Bes) as MB.
  assert (HG : gran c = cN c - 3 - ces c) by reflexivity.
  destruct (unpack_low_val c v V R NZ) as [k0 [e0 [f0 [U1 [EK [IR [He [Hf [LC [EQ [VV KM]]]]]]]]]]].
  rewrite U0 in U1. injection U1 as <- <- <-. pow_pos 2 (ces c). pow_pos 2 (cH c).
  rewrite Z.add_0_r in VV. rewrite (sgq_comp _ _ _ (lval_pow2 (cH c) (k * 2 ^ ces c + e) ltac:(lia))) in VV.
  unfold p_inv. rewrite U0. cbn [bind ltyp lexp lreg lneg lfrac Z.eqb]. pose proof IR as IR0. unfold inreg in IR0.
  assert (CAP : forall k' e', inreg (cN c) k' -> 0 <= e' < 2 ^ ces c -> k' * 2 ^ ces c + e' = - (k * 2 ^ ces c + e) ->
     ~ inv_escapes c v -> ppk (cN c) (lcoord c k' e' 0) <= maxreal c).
  { intros k' e' IR' He' EE NE.
    destruct (lcoord_yrange c k' e' 0 V IR' He' ltac:(lia)) as [Y' YK].
    pose proof (ppk_bounds (cN c) BN _ Y') as PB.
    destruct (Z_le_gt_dec (ppk (cN c) (lcoord c k' e' 0)) (maxreal c)) as [|GT]; [assumption|exfalso].
    assert (SP : csp c = WithNanInf) by (unfold maxreal in GT; destruct (csp c); auto; lia).
    assert (MX : maxreal c = 2 ^ (cN c - 1) - 2) by (unfold maxreal; rewrite SP; reflexivity).
    assert (PP : ppk (cN c) (lcoord c k' e' 0) = 2 ^ (cN c - 1) - 1) by lia.
    assert (RK : reg (cN c) (2 ^ (cN c - 1) - 1) = k').
    { rewrite <- PP. rewrite (ppk_reg (cN c) BN _ Y'). assumption. }
    assert (RN : reg (cN c) (2 ^ (cN c - 1) - 1) = cN c - 2).
    { apply reg_unique; [assumption|unfold inreg; lia|]. rewrite base_last by assumption.
      unfold cnt. rewrite Z.eqb_refl. lia. }
    assert (KK : k' = cN c - 2) by lia. rewrite KK in EE.
    assert (KE : k = - (cN c - 2)) by nia.
    rewrite KE in EK. symmetry in EK. apply (reg_1 c V) in EK; [|lia].
    apply NE. split; [assumption|lia]. }
  destruct (Z.eqb_spec e 0) as [E0|E0].
  - subst e. unfold cneg. rewrite reg_arith by (assumption || lia). cbn [bind].
    rewrite reg_cast by (assumption || lia).
    assert (IR' : inreg (cN c) (- k)) by (unfold inreg in *; lia).
    exists (- k), 0. split; [reflexivity|]. split; [assumption|]. split; [lia|]. split; [ring|].
    split; [assumption|]. apply CAP; [assumption|lia|ring].
  - assert (KL : k <> cN c - 2) by (intros K; destruct (KM K); lia).
    unfold cadd, cneg. rewrite reg_arith by (assumption || lia). cbn [bind].
    rewrite reg_arith by (assumption || lia). cbn [bind].
    rewrite reg_cast by (assumption || lia).
    assert (SUB : exists x, csub (common (tS c) (tU c)) (REG_SCALE c) e = Ok x /\ cast (tU c) x = 2 ^ ces c - e).
    { exists (2 ^ ces c - e). unfold csub, REG_SCALE. pose proof (pow2_mono (ces c) 30 ltac:(lia)) as P30.
      change (2 ^ 30) with 1073741824 in P30.
      split; [|apply exp_cast; [assumption|lia]].
      destruct (vc_H _ V) as [W|[W|[W|W]]]; unfold tS, tU; rewrite W.
      - change (common (sint 8) (uint 8)) with c_int. apply arith_s; [cbv; reflexivity|]. change (2 ^ (32 - 1)) with 2147483648. lia.
      - change (common (sint 16) (uint 16)) with c_int. apply arith_s; [cbv; reflexivity|]. change (2 ^ (32 - 1)) with 2147483648. lia.
      - change (common (sint 32) (uint 32)) with (uint 32). unfold arith. cbn [isg uint]. f_equal. unfold wrapu. cbn [iw uint].
        apply Z.mod_small. change (2 ^ 32) with 4294967296. lia.
      - change (common (sint 64) (uint 64)) with (uint 64). unfold arith. cbn [isg uint]. f_equal. unfold wrapu. cbn [iw uint].
        apply Z.mod_small. change (2 ^ 64) with 18446744073709551616. lia. }
    destruct SUB as [x [S1 S2]]. rewrite S1. cbn [bind]. rewrite S2.
    assert (IR' : inreg (cN c) (- (k + 1))) by (unfold inreg in *; lia).
    exists (- (k + 1)), (2 ^ ces c - e). split; [reflexivity|]. split; [assumption|]. split; [lia|]. split; [ring|].
    split; [assumption|]. apply CAP; [assumption|lia|ring].
Qed.

Lemma sgq_inv n x : ~ (x == 0)%Q -> (/ sgq n x == sgq n (/ x))%Q.
Proof. intros H. destruct n; cbn [sgq]; field; assumption. Qed.

Lemma p_inv_frac c v k e f : valid_cfg c -> mul_fits c -> real c v -> v <> 0 ->
  unpack_low c v = Ok (UL Regular (v <? 0) k e f) -> f <> 0 ->
  exists e' f', p_inv c v = pack_posit c (U Regular (v <? 0) e' f') /\
    exists x, cell (cF c) e' f' 0 x /\ (/ value c v == sgq (v <? 0) x)%Q.
Proof.
  intros V MF R NZ U0 F0. vcb V. unfold mul_fits in MF. rewrite <- gran_val in MF.
  destruct (unpack_real c v 2 V ltac:(lia) MF R NZ) as [e2 [f2 [U2 [Hf2 [He2 [M2 V2]]]]]].
  unfold p_inv. rewrite U0. cbn [bind lfrac]. destruct (Z.eqb_spec f 0); [contradiction|].
  unfold unpack in U2. rewrite U0 in U2. cbn [bind] in U2. rewrite U2. cbn [bind].
  destruct (unpack_low_val c v V R NZ) as [k0 [e0 [f0 [U1 [EK [IR [He [Hf [LC [EQ [VV KM]]]]]]]]]]].
  rewrite U0 in U1. injection U1 as <- <- <-.
  assert (FP : 0 < f2).
  { destruct (Z.eq_dec f2 0) as [Z0|]; [|lia]. exfalso.
    (* the fraction seen by FT determines f *)
    unfold unpacked_low2full in U2. cbn [ltyp lfrac lreg lexp lneg] in U2.
    destruct (cast_msb_spec (cH c) (cF c) f (vc_H _ V) (vc_F _ V) Hf) as [r [C1 [C2 C3]]].
    rewrite C1 in U2. cbn [bind] in U2. destruct (join_reg_exp c k e); [|discriminate].
    cbn [bind] in U2. injection U2 as _ ER. rewrite Z0 in ER. rewrite C2 in ER. clear C1 C2 C3.
    assert (GD : exists b, f = b * 2 ^ (cH c - gran c)).
    { exists (pdec (cN c) (Z.abs v) - (k * 2 ^ ces c + e) * 2 ^ gran c).
      assert (HG : gran c = cN c - 3 - ces c) by reflexivity.
      rewrite Z.mul_sub_distr_r, <- EQ. rewrite <- Z.mul_assoc, <- Z.pow_add_r by lia.
      replace (gran c + (cH c - gran c)) with (cH c) by lia. ring. }
    destruct GD as [b B].
    assert (HG : gran c = cN c - 3 - ces c) by reflexivity.
    rewrite B in ER.
    replace (b * 2 ^ (cH c - gran c) * 2 ^ cF c) with (b * 2 ^ (cF c - gran c) * 2 ^ cH c) in ER
      by (rewrite <- !Z.mul_assoc, <- !Z.pow_add_r by lia; do 2 f_equal; lia).
    rewrite Z.div_mul in ER by (apply Z.pow_nonzero; lia).
    pow_pos 2 (cF c - gran c). apply F0. rewrite B. nia. }
  destruct (emax_bound c V) as [EB1 EB2].
  destruct (u_inv_spec (cF c) (c_E c) (v <? 0) e2 f2 (vc_F _ V) (c_E_width c V) ltac:(lia) M2 ltac:(lia) ltac:(lia))
    as [f' [-> C]].
  cbn [bind]. exists (- e2 - 1), f'. split; [reflexivity|].
  eexists. split; [exact C|].
  rewrite V2, uval_abs, sgq_inv.
  - apply sgq_comp. unfold Qdiv. ring.
  - pose proof (uabs_pos (cF c) e2 f2 ltac:(lia) ltac:(lia)). lra.
Qed.

Lemma p_inv_rounds c v r : valid_cfg c -> exp_ok c -> mul_fits c -> real c v -> v <> 0 ->
  ~ inv_escapes c v -> p_inv c v = Ok r -> rounds_tz c (/ value c v) r.
Proof.
  intros V X MF R NZ NE P. vcb V.
  destruct (unpack_low_val c v V R NZ) as [k [e [f [U1 _]]]].
  destruct (Z.eq_dec f 0) as [->|F0].
  - destruct (p_inv_pow2 c v k e V R NZ U1) as [k' [e' [E [IR [He [EE [VV CAP]]]]]]].
    rewrite E in P. pow_pos 2 (cH c).
    eapply rounds_tz_comp; try assumption; [|eapply (pack_low_rounds c _ k' e' 0); try eassumption; try lia; auto].
    rewrite Z.add_0_r, EE. rewrite (sgq_comp _ _ _ (lval_pow2 (cH c) (- (k * 2 ^ ces c + e)) ltac:(lia))).
    rewrite VV, sgq_inv by apply pow2_nz. apply sgq_comp. apply pow2_opp.
  - destruct (p_inv_frac c v k e f V MF R NZ U1 F0) as [e' [f' [E [x [C Vx]]]]].
    rewrite E in P. eapply rounds_tz_comp; try assumption; [symmetry; exact Vx|].
    eapply (cell_rounds c _ e' f' 0); try eassumption. unfold mul_fits in MF. rewrite gran_val. lia.
Qed.

Lemma p_inv_defined c v : valid_cfg c -> exp_ok c -> mul_fits c -> roomy c -> real c v -> v <> 0 ->
  exists r, p_inv c v = Ok r.
Proof.
  intros V X MF Rm R NZ. vcb V.
  destruct (unpack_low_val c v V R NZ) as [k [e [f [U1 _]]]].
  destruct (Z.eq_dec f 0) as [->|F0].
  - destruct (p_inv_pow2 c v k e V R NZ U1) as [k' [e' [E [IR [He [EE [VV CAP]]]]]]].
    rewrite E. pow_pos 2 (cH c). apply pack_low_defined; try assumption. lia.
  - destruct (p_inv_frac c v k e f V MF R NZ U1 F0) as [e' [f' [E [x [C Vx]]]]].
    rewrite E. apply pack_defined; try assumption. apply C.
Qed.

(** WithNanInf: the reciprocal of the smallest magnitude is the infinity. *)
Lemma p_inv_escape c v r : valid_cfg c -> inv_escapes c v -> p_inv c v = Ok r ->
  r = sg (v <? 0) (2 ^ (cN c - 1) - 1).
Proof.
  intros V [SP S] P. vcb V. pose proof (maxreal_bounds c BN Bes) as MB.
  assert (R : real c v) by (unfold real; lia).
  pose proof (unpack_low_1 c v V S) as U1.
  destruct (p_inv_pow2 c v (- (cN c - 2)) 0 V R ltac:(lia) U1) as [k' [e' [E [IR [He [EE _]]]]]].
  rewrite E in P. pow_pos 2 (ces c). pow_pos 2 (cH c).
  rewrite pack_low_spec in P by (try assumption; lia). destruct (packable c k'); [|discriminate].
  injection P as <-. f_equal. rewrite EE.
  replace ((- (- (cN c - 2) * 2 ^ ces c + 0)) * 2 ^ cH c + 0) with ((cN c - 2) * 2 ^ ces c * 2 ^ cH c) by ring.
  assert (HG : gran c = cN c - 3 - ces c) by reflexivity.
  replace ((cN c - 2) * 2 ^ ces c * 2 ^ cH c) with ((cN c - 2) * 2 ^ (cN c - 3) * 2 ^ (cH c - gran c))
    by (rewrite <- !Z.mul_assoc, <- !Z.pow_add_r by lia; do 2 f_equal; lia).
  rewrite Z.div_mul by (apply Z.pow_nonzero; lia).
  rewrite <- (pdec_last (cN c) BN). apply ppk_pdec; [assumption|].
  pose proof (pow2_mono 2 (cN c - 1) ltac:(lia)) as P4. change (2 ^ 2) with 4 in P4. lia.
Qed.

(** ** next, prev, abs *)
Lemma p_next_in c v : valid_cfg c -> - maxreal c < v < maxreal c -> p_next c v = Ok (v + 1).
Proof.
  intros V R. vcb V. pose proof (pwH_bound c V) as PB. pose proof (maxreal_bounds c BN Bes) as MB.
  unfold p_next. rewrite P_MINNEG_val, P_MAXPOS_val by assumption.
  rewrite Z.gtb_ltb. destruct (Z.leb_spec v (- maxreal c)); [lia|]. destruct (Z.ltb_spec (maxreal c) v); [lia|].
  cbn [orb]. unfold cadd, tS. pose proof (pow2_mono (cN c - 1) (cH c - 1) ltac:(lia)).
  rewrite arith_ps by (try apply (vc_H _ V); lia). cbn [bind]. unfold deep, tS.
  rewrite cast_s_small by lia. reflexivity.
Qed.

Lemma p_next_lowest c : valid_cfg c -> p_next c (- maxreal c) = Ok (- maxreal c).
Proof.
  intros V. unfold p_next. rewrite P_MINNEG_val, P_MAXPOS_val by assumption.
  rewrite Z.leb_refl. reflexivity.
Qed.

(** Past the largest real posit: the infinity of WithNanInf, otherwise out of the canonical range or UB. *)
Lemma p_next_max c r : valid_cfg c -> p_next c (maxreal c) = Ok r ->
  r = cast (tS c) (maxreal c + 1).
Proof.
  intros V P. vcb V. pose proof (maxreal_bounds c BN Bes) as MB.
  unfold p_next in P. rewrite P_MINNEG_val, P_MAXPOS_val in P by assumption.
  rewrite Z.gtb_ltb in P. destruct (Z.leb_spec (maxreal c) (- maxreal c)); [lia|].
  rewrite Z.ltb_irrefl in P. cbn [orb] in P. unfold cadd, arith in P.
  assert (PS : isg (prom (tS c)) = true).
  { unfold tS. destruct (vc_H _ V) as [E|[E|[E|E]]]; rewrite E; reflexivity. }
  rewrite PS in P. destruct (fits _ _); [|discriminate]. cbn [bind] in P. injection P as <-. reflexivity.
Qed.

Lemma p_prev_in c v : valid_cfg c -> - maxreal c < v <= maxreal c -> p_prev c v = Ok (v - 1).
Proof.
  intros V R. vcb V. pose proof (pwH_bound c V) as PB. pose proof (maxreal_bounds c BN Bes) as MB.
  unfold p_prev. rewrite P_MINNEG_val, P_MAXPOS_val by assumption.
  rewrite Z.gtb_ltb. destruct (Z.leb_spec v (- maxreal c)); [lia|]. destruct (Z.ltb_spec (maxreal c) v); [lia|].
  cbn [orb]. unfold csub, tS. pose proof (pow2_mono (cN c - 1) (cH c - 1) ltac:(lia)).
  rewrite arith_ps by (try apply (vc_H _ V); lia). cbn [bind]. unfold deep, tS.
  rewrite cast_s_small by lia. reflexivity.
Qed.

Lemma p_prev_lowest c : valid_cfg c -> p_prev c (- maxreal c) = Ok (- maxreal c).
Proof.
  intros V. unfold p_prev. rewrite P_MINNEG_val, P_MAXPOS_val by assumption.
  rewrite Z.leb_refl, orb_true_r. reflexivity.
Qed.

Lemma p_abs_real c v : valid_cfg c -> real c v -> p_abs c v = Ok (Z.abs v).
Proof.
  intros V R. vcb V. pose proof (real_bounds c BN Bes v R) as RB. pose proof (pwH_bound c V) as PB.
  unfold p_abs, pcabs. pose proof (pow2_mono (cN c - 1) (cH c - 1) ltac:(lia)).
  destruct (Z.ltb_spec v 0).
  2: { cbn [bind]. unfold deep, tS. rewrite cast_s_small by lia. f_equal. lia. }
  unfold cneg. rewrite arith_ps by (try apply (vc_H _ V); lia). cbn [bind]. unfold deep, tS.
  rewrite !cast_s_small by (rewrite ?cast_s_small by lia; lia). f_equal. lia.
Qed.
