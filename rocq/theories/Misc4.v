(** numeric_limits (C55) and the constants of the float traits (C52). *)
From Coq Require Import ZArith QArith Qabs Lia Lqa Bool List.
From Verif Require Import Res CInt Bits Traits Unpacked Cfg Posit Spec QPow Core SpecLemmas Arith
  DecodeProof EncodeProof UOps UAdd Ops OpsAdd OpsUnary OpsUnary2 Specials Room Laws Configs Final1 Final2 Conv1 Conv2 Conv3 Conv4 Conv5.
Open Scope Z_scope.

Lemma lval_power g e : 0 <= g -> (lval g (e * 2 ^ g) == pow2 e)%Q.
Proof.
  intros G. pow_pos 2 g. rewrite <- (Z.add_0_r (e * 2 ^ g)). rewrite lval_ef by lia. rewrite Z.add_0_r.
  unfold dy. rewrite <- pow2_Z by lia. rewrite <- pow2_plus. replace (g + (e - g)) with e by lia. reflexivity.
Qed.

Lemma scale_pow2 e : scale (pow2 e) e.
Proof.
  pose proof (pow2_pos e). unfold scale. rewrite Qabs_pos by lra. split; [lra|]. apply pow2_lt. lia.
Qed.

(** The posit 2^-(totalbits-3-esbits). *)
Lemma eps_pattern c : valid_cfg c -> exists p, real c p /\ (value c p == pow2 (- gran c))%Q.
Proof.
  intros V. vcb V. pose proof (gran_nonneg c BN Bes) as G0. rewrite gran_val in *.
  set (G := cN c - 3 - ces c) in *. pow_pos 2 (ces c). pow_pos 2 G.
  set (k := (- G) / 2 ^ ces c). set (e := (- G) mod 2 ^ ces c).
  assert (KE : - G = 2 ^ ces c * k + e) by (apply Z.div_mod; lia).
  assert (He : 0 <= e < 2 ^ ces c) by (apply Z.mod_pos_bound; lia).
  assert (K0 : - G <= k <= 0) by nia.
  set (s := sft k). assert (S : 0 <= s /\ s <= G /\ (k = 0 -> s = 0) /\ (k < 0 -> s = - k - 1)).
  { unfold s, sft. destruct (Z.leb_spec 0 k); lia. }
  assert (IR : inreg (cN c) k) by (unfold inreg; lia).
  assert (CN : cnt (cN c) k = 2 ^ (cN c - 3 - s)).
  { unfold cnt. destruct (Z.eqb_spec k (cN c - 2)); [lia|reflexivity]. }
  set (p := base (cN c) k + e * 2 ^ (G - s)).
  pow_pos 2 (G - s).
  assert (EC : 2 ^ (cN c - 3 - s) = 2 ^ ces c * 2 ^ (G - s)) by (rewrite <- Z.pow_add_r by lia; f_equal; lia).
  assert (Rp : base (cN c) k <= p < base (cN c) k + cnt (cN c) k) by (unfold p; rewrite CN, EC; nia).
  assert (RG : reg (cN c) p = k) by (apply reg_unique; assumption || lia).
  destruct (base_bounds (cN c) ltac:(lia) k IR) as [B1 B2].
  assert (PM : pdec (cN c) p = - G * 2 ^ G).
  { unfold pdec. rewrite RG. fold s. unfold p. replace (base (cN c) k + e * 2 ^ (G - s) - base (cN c) k) with (e * 2 ^ (G - s)) by lia.
    rewrite <- Z.mul_assoc, <- Z.pow_add_r by lia. replace (G - s + s) with G by lia.
    replace (cN c - 3) with (ces c + G) by lia. rewrite Z.pow_add_r by lia. rewrite KE. ring. }
  exists p. split.
  - assert (LE : p <= 2 ^ (cN c - 2)).
    { rewrite <- (base_0 (cN c)) by lia. destruct (Z.eq_dec k 0) as [K|K].
      - unfold p. rewrite K. assert (e = 0) by nia. lia.
      - pose proof (base_lt (cN c) ltac:(lia) k 0 IR ltac:(unfold inreg; lia) ltac:(lia)). lia. }
    pose proof (one_real c V) as [_ OR]. unfold real. lia.
  - rewrite (value_pos_lval c BN Bes) by lia. rewrite PM. rewrite gran_val. fold G. apply lval_power. lia.
Qed.

Lemma next_one c : valid_cfg c -> (csp c = WithNanInf -> cN c <> 3) ->
  p_next c (p_one c) = Ok (2 ^ (cN c - 2) + 1) /\ real c (2 ^ (cN c - 2) + 1) /\
  (value c (2 ^ (cN c - 2) + 1) == 1 + pow2 (- gran c))%Q.
Proof.
  intros V N3. vcb V. pose proof (gran_nonneg c BN Bes) as G0.
  destruct (pow_split c V) as [P1 P2].
  assert (MR : 2 ^ (cN c - 2) + 1 <= maxreal c).
  { unfold maxreal. destruct (csp c) eqn:S; try lia. specialize (N3 eq_refl).
    assert (2 ^ (cN c - 2) = 2 * 2 ^ (cN c - 3)) by (rewrite <- pow2_S by lia; f_equal; lia).
    pow_pos 2 (cN c - 3). destruct (Z.eq_dec (2 ^ (cN c - 3)) 1) as [E|E]; [|lia].
    assert (2 ^ (cN c - 3) >= 2 ^ 1) by (apply Z.le_ge, pow2_mono; lia). lia. }
  rewrite one_val by assumption. split; [apply p_next_in; [assumption|lia]|]. split; [unfold real; lia|].
  rewrite (value_pos_lval c BN Bes) by lia.
  assert (PD : pdec (cN c) (2 ^ (cN c - 2) + 1) = 1).
  { destruct (Z.eq_dec (cN c) 3) as [E|E].
    - rewrite E. reflexivity.
    - assert (RG : reg (cN c) (2 ^ (cN c - 2) + 1) = 0).
      { apply reg_unique; [lia|unfold inreg; lia|]. rewrite base_0 by lia. unfold cnt.
        destruct (Z.eqb_spec 0 (cN c - 2)); [lia|]. change (sft 0) with 0. rewrite Z.sub_0_r.
        pose proof (pow2_mono 1 (cN c - 3) ltac:(lia)). lia. }
      unfold pdec. rewrite RG, base_0 by lia. change (sft 0) with 0. rewrite Z.pow_0_r. lia. }
  rewrite PD. pow_pos 2 (gran c). change (lval (gran c) 1) with (lval (gran c) (0 * 2 ^ gran c + 1)). rewrite lval_ef' by lia.
  unfold dy. rewrite inject_Z_plus, <- pow2_Z by lia. change (inject_Z 1) with 1%Q.
  rewrite Qmult_plus_distr_l, <- pow2_plus. replace (gran c + (0 - gran c)) with 0 by lia.
  replace (0 - gran c) with (- gran c) by lia. change (pow2 0) with 1%Q. ring.
Qed.

Lemma es_room c : valid_cfg c -> exp_ok c -> ces c + 3 < Z.max 32 (cH c).
Proof.
  intros V X. vcb V. pose proof (vc_H _ V) as WH. unfold is_width in WH. pose proof (vc_64 _ V). unfold exp_ok in X.
  destruct (Z_lt_le_dec (ces c) 29) as [L|L]; [lia|].
  destruct (Z.eq_dec (cH c) 64) as [H6|H6]; [lia|]. assert (H32 : cH c = 32) by lia. specialize (X H32).
  assert (MK : 1 <= maxk c /\ cN c - 3 <= maxk c) by (unfold maxk; destruct (spec_eqb (csp c) WithNanInf); lia).
  pose proof (pow2_mono 29 (ces c) ltac:(lia)). change (2 ^ 29) with 536870912 in *. change (2 ^ 31) with 2147483648 in *. nia.
Qed.

Lemma eps_room c e : valid_cfg c -> exp_ok c -> - gran c <= e <= 1 -> pack_room c e.
Proof.
  intros V X He. vcb V. pose proof (gran_nonneg c BN Bes) as G0. rewrite gran_val in *. pose proof (es_room c V X) as ER.
  pow_pos 2 (ces c). unfold pack_room. cbv zeta. set (E := Z.min _ _).
  assert (MK : 0 <= maxk c <= cN c - 2) by (unfold maxk; destruct (spec_eqb (csp c) WithNanInf); lia).
  assert (EB : - (cN c - 3 - ces c) <= E <= 1).
  { unfold E. split; [|nia]. apply Z.min_glb; [nia|]. lia. }
  set (k := E / 2 ^ ces c).
  assert (KK : 2 ^ ces c * k <= E < 2 ^ ces c * (k + 1)) by (unfold k; split; [apply Z.mul_div_le; lia|pose proof (Z.mul_succ_div_gt E (2 ^ ces c)); lia]).
  assert (KB : - (cN c - 3 - ces c) <= k <= 1) by nia.
  pose proof (vc_H _ V) as WH. unfold is_width in WH.
  destruct (Z.eq_dec (ces c) 0) as [E0|E0].
  - destruct (Z.leb_spec 0 k); lia.
  - assert (P2 : 2 <= 2 ^ ces c) by (pose proof (pow2_mono 1 (ces c) ltac:(lia)); lia).
    assert (P3 : ces c <> 1 -> 4 <= 2 ^ ces c) by (intros; pose proof (pow2_mono 2 (ces c) ltac:(lia)); lia).
    assert (2 * k >= - (cN c - 3 - ces c) - 1) by nia.
    destruct (Z.leb_spec 0 k); [|lia].
    assert (k = 0) by nia. lia.
Qed.

Lemma near_between c x y a b : scale x a -> scale y b -> Z.abs (a - b) < Z.max 32 (cF c) -> near c x y.
Proof.
  intros Sa Sb L ea eb Ea Eb.
  rewrite (scale_unique _ _ _ Ea Sa), (scale_unique _ _ _ Eb Sb). assumption.
Qed.

Lemma epsilon c : valid_cfg c -> exp_ok c -> add_fits c -> (csp c = WithNanInf -> cN c <> 3) ->
  exists eps n, p_epsilon c = Ok eps /\ real c eps /\ (value c eps == pow2 (- (cN c - 3 - ces c)))%Q /\
    p_next c (p_one c) = Ok n /\ real c n /\ p_add c (p_one c) eps = Ok n /\ (value c n == 1 + value c eps)%Q.
Proof.
  intros V X A N3. vcb V. pose proof (gran_nonneg c BN Bes) as G0.
  destruct (eps_pattern c V) as [p [Rp Vp]]. destruct (next_one c V N3) as [N1 [N2 N4]].
  pose proof (one_real c V) as R1. pose proof (one_value c V) as V1.
  pose proof (pow2_pos (- gran c)) as PP. assert (PL : (pow2 (- gran c) <= 1)%Q) by (change 1%Q with (pow2 0); apply pow2_le; lia).
  set (n := 2 ^ (cN c - 2) + 1) in *.
  assert (SC1 : scale (value c (2 ^ (cN c - 2))) 0).
  { eapply scale_comp; [symmetry; exact V1|]. apply (scale_pow2 0). }
  assert (SCE : scale (value c p) (- gran c)) by (eapply scale_comp; [symmetry; exact Vp|]; apply scale_pow2).
  assert (SCn : exists e, (e = 0 \/ e = 1) /\ scale (value c n) e).
  { destruct (Qlt_le_dec (pow2 (- gran c)) 1) as [L|L].
    - exists 0. split; [lia|]. unfold scale. rewrite N4, Qabs_pos by lra. change (pow2 0) with 1%Q. change (pow2 (0 + 1)) with 2%Q. lra.
    - exists 1. split; [lia|]. unfold scale. rewrite N4, Qabs_pos by lra. change (pow2 1) with 2%Q. change (pow2 (1 + 1)) with 4%Q. lra. }
  destruct SCn as [en [En Sn]].
  assert (E1 : p_epsilon c = Ok p).
  { unfold p_epsilon. rewrite N1. cbn [bind]. rewrite one_val by assumption.
    destruct (sub_total c n (2 ^ (cN c - 2)) V X A N2 R1) as [T _].
    assert (EX : (value c n - value c (2 ^ (cN c - 2)) == value c p)%Q) by (rewrite N4, V1, Vp; ring).
    destruct T as [r [T1 [[_ [T2 _]] _]]].
    - left. split; [apply (near_between c _ _ en 0); try assumption; lia|].
      right. exists (- gran c). split; [eapply scale_comp; [symmetry; exact EX|assumption]|].
      split; apply eps_room; try assumption; lia.
    - rewrite T1. f_equal. apply T2; [assumption|]. rewrite EX. reflexivity. }
  exists p, n. split; [assumption|]. split; [assumption|]. rewrite gran_val in Vp at 1. split; [assumption|].
  split; [assumption|]. split; [assumption|].
  assert (VN : (value c n == 1 + value c p)%Q) by (rewrite N4, gran_val, Vp; reflexivity).
  split; [|assumption]. rewrite one_val by assumption.
  destruct (add_total c (2 ^ (cN c - 2)) p V X A R1 Rp) as [T _].
  assert (EX : (value c (2 ^ (cN c - 2)) + value c p == value c n)%Q) by (rewrite VN, V1; reflexivity).
  destruct T as [r [T1 [[_ [T2 _]] _]]].
  - left. split; [apply (near_between c _ _ 0 (- gran c)); try assumption; unfold add_fits in A; rewrite gran_val; lia|].
    right. destruct En as [->| ->].
    + exists 0. split; [eapply scale_comp; [symmetry; exact EX|assumption]|]. split; apply eps_room; try assumption; lia.
    + exists 1. split; [eapply scale_comp; [symmetry; exact EX|assumption]|].
      assert (G1 : gran c = 0).
      { destruct Sn as [Sn _]. rewrite N4, Qabs_pos in Sn by lra. change (pow2 1) with 2%Q in Sn.
        assert ((pow2 0 <= pow2 (- gran c))%Q) by (change (pow2 0) with 1%Q; lra).
        destruct (Z.eq_dec (gran c) 0); [assumption|]. pose proof (pow2_lt (- gran c) 0 ltac:(lia)). lra. }
      split; [apply eps_room; try assumption; lia|]. rewrite gran_val in G1.
      unfold pack_room. cbv zeta. set (E := Z.min _ _). pow_pos 2 (ces c).
      assert (MK : 0 <= maxk c <= cN c - 2) by (unfold maxk; destruct (spec_eqb (csp c) WithNanInf); lia).
      assert (EB : 0 <= E <= 2) by (unfold E; nia).
      assert (KK : 2 ^ ces c * (E / 2 ^ ces c) <= E) by (apply Z.mul_div_le; lia).
      assert (K0 : 0 <= E / 2 ^ ces c) by (apply Z.div_pos; lia).
      pose proof (vc_H _ V) as WH. unfold is_width in WH.
      destruct (Z.leb_spec 0 (E / 2 ^ ces c)); [|lia].
      assert (E / 2 ^ ces c <= 2) by nia.
      pose proof (es_room c V X). lia.
  - rewrite T1. f_equal. apply T2; [assumption|]. symmetry. assumption.
Qed.

Lemma limits c : valid_cfg c -> exp_ok c ->
  exists lo hi, minexponent c = Ok lo /\ maxexponent c = Ok hi /\
    (value c (p_min c) == pow2 lo)%Q /\ (value c (p_max c) == pow2 hi)%Q.
Proof.
  intros V X. vcb V. pose proof (gran_nonneg c BN Bes) as G0. destruct (pow_split c V) as [P1 P2].
  exists (- emax c), (maxk c * 2 ^ ces c). split; [apply minexponent_spec; assumption|]. split; [apply maxexponent_spec; assumption|].
  assert (E3 : 2 ^ (cN c - 3) = 2 ^ ces c * 2 ^ gran c).
  { rewrite <- Z.pow_add_r by (rewrite ?gran_val; lia). f_equal. rewrite gran_val. lia. }
  split.
  - assert (PM : p_min c = 1) by (unfold p_min, P_AFTER0, deep, tS; apply cast_s_small; [lia|]; pose proof (pow2_mono 1 (cH c - 1) ltac:(lia)); lia).
    rewrite PM, (value_pos_lval c BN Bes), pdec_first by lia. rewrite E3.
    replace (- (cN c - 2) * (2 ^ ces c * 2 ^ gran c)) with (- emax c * 2 ^ gran c) by (unfold emax; ring).
    apply lval_power. assumption.
  - pose proof (maxreal_bounds c BN Bes) as MB. pose proof (pow2_mono (cN c - 1) (cH c - 1) ltac:(lia)).
    assert (PM : p_max c = maxreal c) by (unfold p_max; rewrite P_MAXPOS_val by assumption; unfold deep, tS; apply cast_s_small; lia).
    rewrite PM, (value_pos_lval c BN Bes) by lia. unfold maxreal, maxk in *.
    destruct (csp c); cbn [spec_eqb]; rewrite ?pdec_last, ?pdec_last2 by lia; rewrite E3, Z.mul_assoc; apply lval_power; assumption.
Qed.

(** Constants of the float traits. *)
Lemma trait_small eb fb den : fmt_ok eb fb ->
  t_one (any_floattrait eb fb den) = fbits eb fb false (2 ^ (eb - 1) - 1) 0 /\
  t_two (any_floattrait eb fb den) = fbits eb fb false (2 ^ (eb - 1)) 0 /\
  t_min (any_floattrait eb fb den) = fbits eb fb false 1 0.
Proof.
  intros FO. pose proof FO as FO'. destruct FO' as [W [E1 E2] Hf]. cbn [any_floattrait t_one t_two t_min].
  pow_pos 2 (eb + fb). pow_pos 2 fb. pow_pos 2 (eb - 1).
  assert (ED : 2 ^ (eb + fb + 1) = 4 * (2 ^ (eb - 1) * 2 ^ fb)).
  { replace (eb + fb + 1) with (2 + (eb - 1 + fb)) by lia. rewrite Z.pow_add_r by lia. rewrite Z.pow_add_r by lia. reflexivity. }
  assert (ET : 2 ^ (eb - 1 + fb) = 2 ^ (eb - 1) * 2 ^ fb) by (apply Z.pow_add_r; lia).
  unfold kmask, fbits. rewrite !cast_u_small by (rewrite ED, ?ET; nia). rewrite ET. repeat split; ring.
Qed.

Lemma fbits_split eb fb b : fmt_ok eb fb -> 0 <= b < 2 ^ (eb + fb + 1) ->
  exists s e m, b = fbits eb fb s e m /\ 0 <= e < 2 ^ eb /\ 0 <= m < 2 ^ fb /\ e = (b / 2 ^ fb) mod 2 ^ eb.
Proof.
  intros FO B. pose proof FO as FO'. destruct FO' as [W [E1 E2] Hf].
  exists (fsign_of eb fb b), (fexp_of eb fb b), (ffrac_of fb b). split; [symmetry; apply fbits_inv; assumption|].
  split; [apply Z.mod_pos_bound; pow_pos 2 eb; lia|]. split; [apply Z.mod_pos_bound; pow_pos 2 fb; lia|]. reflexivity.
Qed.

Lemma trait_constants eb fb den : fmt_ok eb fb ->
  let t := any_floattrait eb fb den in
  let finite b q := 0 <= b < 2 ^ (eb + fb + 1) /\ ieee_val eb fb b = FinVal q in
  (exists q, finite (t_one t) q /\ (q == 1)%Q) /\ (exists q, finite (t_two t) q /\ (q == 2)%Q) /\
  (exists q, finite (t_max t) q /\ (forall b' q', finite b' q' -> (q' <= q)%Q)) /\
  (exists q, finite (t_lowest t) q /\ (forall b' q', finite b' q' -> (q <= q')%Q)) /\
  (exists q, finite (t_min t) q /\ (q == pow2 (2 - 2 ^ (eb - 1)))%Q /\
     (forall b' q', finite b' q' -> (b' / 2 ^ fb) mod 2 ^ eb <> 0 -> (q <= Qabs q')%Q)) /\
  (0 <= t_pinf t < 2 ^ (eb + fb + 1) /\ ieee_val eb fb (t_pinf t) = InfVal false) /\
  (0 <= t_ninf t < 2 ^ (eb + fb + 1) /\ ieee_val eb fb (t_ninf t) = InfVal true) /\
  (0 <= t_nan t < 2 ^ (eb + fb + 1) /\ ieee_val eb fb (t_nan t) = NaNVal).
Proof.
  intros FO t finite. pose proof FO as FO'. destruct FO' as [W [E1 E2] Hf].
  destruct (trait_small eb fb den FO) as [T1 [T2 T3]]. destruct (trait_max eb fb den FO) as [T4 [T5 _]].
  destruct (trait_inf eb fb den FO) as [T6 [T7 T8]]. fold t in T1, T2, T3, T4, T5, T6, T7, T8.
  rewrite T1, T2, T3, T4, T5, T6, T7, T8. clear T1 T2 T3 T4 T5 T6 T7 T8. clearbody t.
  pow_pos 2 fb. pow_pos 2 (fb - 1).
  assert (P1 : 2 ^ eb = 2 * 2 ^ (eb - 1)) by (replace eb with (eb - 1 + 1) at 1 by lia; apply pow2_S; lia).
  assert (P2 : 2 <= 2 ^ (eb - 1)) by (pose proof (pow2_mono 1 (eb - 1) ltac:(lia)); lia).
  assert (P3 : 2 ^ fb = 2 * 2 ^ (fb - 1)) by (replace fb with (fb - 1 + 1) at 1 by lia; apply pow2_S; lia).
  set (bias := 2 ^ (eb - 1) - 1) in *.
  assert (NV : forall s e, 1 <= e < 2 ^ eb - 1 -> exists q, finite (fbits eb fb s e 0) q /\ (q == sgq s (pow2 (e - bias)))%Q).
  { intros s e He. destruct (ieee_normal eb fb FO s e 0 He ltac:(lia)) as [q [Q1 Q2]]. exists q.
    split; [split; [apply fbits_range; try assumption; lia|assumption]|]. rewrite Q2, Z.add_0_r.
    unfold sgq. destruct s; rewrite lval_power by lia; reflexivity. }
  assert (BIG : forall b' q', finite b' q' -> (Qabs q' <= lval fb ((2 ^ eb - 2 - bias) * 2 ^ fb + (2 ^ fb - 1)))%Q).
  { intros b' q' [B1 B2]. destruct (ieee_inv eb fb FO b' q' B1 B2) as [(e & m & He & Hm & V)|(m & Hm & V)]; rewrite V; clear V.
    - apply lval_le; [lia|]. nia.
    - apply Qle_trans with (lval fb ((1 - bias) * 2 ^ fb + m)).
      + rewrite lval_ef by lia. unfold dy. pose proof (pow2_pos (1 - bias - fb)).
        apply Qmult_le_compat_r; [rewrite <- Zle_Qle; lia|lra].
      + apply lval_le; [lia|]. nia. }
  split; [|split; [|split; [|split; [|split]]]].
  - destruct (NV false (2 ^ (eb - 1) - 1) ltac:(lia)) as [q [Q1 Q2]]. exists q. split; [assumption|]. rewrite Q2. fold bias.
    rewrite Z.sub_diag. reflexivity.
  - destruct (NV false (2 ^ (eb - 1)) ltac:(lia)) as [q [Q1 Q2]]. exists q. split; [assumption|]. rewrite Q2.
    replace (2 ^ (eb - 1) - bias) with 1 by (unfold bias; lia). reflexivity.
  - destruct (ieee_normal eb fb FO false (2 ^ eb - 2) (2 ^ fb - 1) ltac:(lia) ltac:(lia)) as [q [Q1 Q2]]. exists q.
    split; [split; [apply fbits_range; try assumption; lia|assumption]|]. intros b' q' B. specialize (BIG b' q' B). rewrite Q2. cbn [sgq].
    fold bias. pose proof (Qle_Qabs q'). unfold sgq. lra.
  - destruct (ieee_normal eb fb FO true (2 ^ eb - 2) (2 ^ fb - 1) ltac:(lia) ltac:(lia)) as [q [Q1 Q2]]. exists q.
    split; [split; [apply fbits_range; try assumption; lia|assumption]|]. intros b' q' B. specialize (BIG b' q' B). rewrite Q2.
    fold bias. pose proof (Qle_Qabs (- q')). rewrite Qabs_opp in H1. unfold sgq. lra.
  - destruct (NV false 1 ltac:(lia)) as [q [Q1 Q2]]. exists q. split; [assumption|].
    assert (QV : (q == pow2 (1 - bias))%Q) by (rewrite Q2; reflexivity).
    split; [rewrite QV; replace (1 - bias) with (2 - 2 ^ (eb - 1)) by (unfold bias; lia); reflexivity|].
    intros b' q' [B1 B2] NE. destruct (fbits_split eb fb b' FO B1) as (s & e & m & EB & He & Hm & Ee). rewrite <- Ee in NE.
    assert (e <> 2 ^ eb - 1).
    { intros ->. rewrite EB in B2. rewrite ieee_top in B2 by assumption. destruct (m =? 0); discriminate. }
    destruct (ieee_normal eb fb FO s e m ltac:(lia) Hm) as [r [R1 R2]]. rewrite <- EB in R1. rewrite R1 in B2. injection B2 as ->.
    assert (L0 : (0 < lval fb ((e - bias) * 2 ^ fb + m))%Q) by (apply lval_pos; lia).
    rewrite R2, sgq_abs by (fold bias; lra). rewrite QV, <- (lval_power fb) by lia. fold bias. apply lval_le; [lia|]. nia.
  - split; [|split].
    + split; [apply fbits_range; try assumption; lia|]. rewrite ieee_top by (assumption || lia). reflexivity.
    + split; [apply fbits_range; try assumption; lia|]. rewrite ieee_top by (assumption || lia). reflexivity.
    + split; [apply fbits_range; try assumption; lia|]. rewrite ieee_top by (assumption || lia).
      destruct (Z.eqb_spec (2 ^ (fb - 1)) 0); [lia|reflexivity].
Qed.

Lemma named_traits : half_trait = any_floattrait 5 10 true /\ single_trait = any_floattrait 8 23 true /\
  double_trait = any_floattrait 11 52 true /\ fmt_ok 5 10 /\ fmt_ok 8 23 /\ fmt_ok 11 52 /\ fmt_ok 5 2 /\ fmt_ok 8 7.
Proof. repeat split; try (cbn; unfold is_width; lia). Qed.
