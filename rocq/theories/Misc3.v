(** analyze (C54). *)
From Coq Require Import ZArith QArith Qabs Lia Lqa Bool List.
From Verif Require Import Res CInt Bits Traits Unpacked Cfg Posit Spec QPow Core SpecLemmas Arith
  DecodeProof EncodeProof UOps UAdd Ops OpsAdd OpsUnary OpsUnary2 Specials Room Laws Configs Final1 BitsProof.
Import ListNotations.
Open Scope Z_scope.

(** Instantiations for which analyze shifts by less than the width of its operands. *)
Definition analyze_ok (c : cfg) : Prop := (0 < ces c \/ cH c < 32) /\ (cF c < 64 \/ cH c = 64).

Lemma frac_move c f : valid_cfg c -> 0 <= f < 2 ^ cH c ->
  (cF c < 64 \/ cH c = 64 -> exists r, (if cF c >=? cH c then cshl (prom (tU c)) f (cF c - cH c)
                else cshr (prom (tU c)) f (cH c - cF c)) = Ok r /\ cast_msb (cH c) (cF c) f = Ok (cast (uint (cF c)) r)) /\
  (cF c = 64 -> cH c < 64 -> (if cF c >=? cH c then cshl (prom (tU c)) f (cF c - cH c)
                else cshr (prom (tU c)) f (cH c - cF c)) = UB ShiftCount).
Proof.
  intros V Hf. pose proof (vc_H _ V) as WH. pose proof (vc_F _ V) as WF. pose proof (pw_ge_w _ WH) as PG.
  pose proof (is_width_pos _ WH). pose proof (is_width_pos _ WF).
  rewrite Z.geb_leb. unfold tU. split.
  - intros CC. unfold cast_msb.
    destruct (Z.leb_spec (cH c) (cF c)) as [L|L].
    + destruct (Z.gtb_spec (cH c) (cF c)); [lia|].
      assert (Lp : cF c - cH c < pw (cH c)).
      { unfold pw, is_width in *. lia. }
      assert (Lq : cF c - cH c < pw (cF c)) by (unfold pw, is_width in *; lia).
      assert (PP : 2 ^ cH c * 2 ^ (cF c - cH c) = 2 ^ cF c) by (rewrite <- Z.pow_add_r by lia; f_equal; lia).
      pow_pos 2 (cF c - cH c).
      assert (FB : 0 <= f * 2 ^ (cF c - cH c) < 2 ^ cF c) by nia.
      pose proof (pow2_mono (cH c) (cF c) ltac:(lia)).
      rewrite (cast_u_small (cF c)) by lia.
      destruct (cshl_u_exact (cF c) f (cF c - cH c)) as [s [S1 S2]]; try assumption; try lia.
      rewrite S1. cbn [bind]. rewrite S2.
      unfold cshl. rewrite iw_prom_uint by assumption.
      destruct (Z.ltb_spec (cF c - cH c) 0); [lia|]. destruct (Z.leb_spec (pw (cH c)) (cF c - cH c)); [lia|]. cbn [orb].
      assert (FW : cF c <= pw (cH c)) by (unfold pw, is_width in *; lia).
      pose proof (pow2_mono (cF c) (pw (cH c)) ltac:(lia)).
      destruct (isg (prom (uint (cH c)))) eqn:SG.
      * destruct (Z.ltb_spec f 0); [lia|]. destruct (Z.leb_spec (2 ^ pw (cH c)) (f * 2 ^ (cF c - cH c))); [lia|].
        eexists. split; [reflexivity|]. f_equal. rewrite cast_u, wraps_mod_le by lia. symmetry. apply Z.mod_small. lia.
      * eexists. split; [reflexivity|]. f_equal. rewrite cast_u. unfold wrapu.
        rewrite (Z.mod_small _ (2 ^ pw (cH c))) by lia. symmetry. apply Z.mod_small. lia.
    + destruct (Z.gtb_spec (cH c) (cF c)); [|lia].
      rewrite cshr_ok by (rewrite iw_prom_uint by assumption; unfold pw; lia). cbn [bind].
      eexists. split; reflexivity.
  - intros F64 H64. destruct (Z.leb_spec (cH c) (cF c)); [|lia].
    unfold cshl. rewrite iw_prom_uint by assumption.
    destruct (Z.ltb_spec (cF c - cH c) 0); [lia|]. destruct (Z.leb_spec (pw (cH c)) (cF c - cH c)); [reflexivity|].
    unfold pw, is_width in *. lia.
Qed.

Lemma leftmost_get c x : valid_cfg c -> 0 <= x < 2 ^ cH c ->
  (0 < ces c \/ cH c < 32 -> bitset_get (cH c) x (cH c - ces c) (ces c) = bitset_leftmost_get_const (cH c) (ces c) x) /\
  (ces c = 0 -> 32 <= cH c -> bitset_get (cH c) x (cH c - ces c) (ces c) = UB ShiftCount).
Proof.
  intros V X. pose proof (vc_H _ V) as WH. vcb V. split.
  - intros CC. unfold bitset_leftmost_get_const. destruct (Z.eqb_spec (ces c) 0) as [E0|E0]; [|reflexivity].
    rewrite E0, Z.sub_0_r. unfold bitset_get. pose proof (is_width_pos _ WH).
    assert (PW : pw (cH c) = 32) by (unfold pw, is_width in *; lia).
    rewrite cshr_ok by (rewrite iw_prom_uint by assumption; unfold pw; lia). cbn [bind].
    rewrite bitmask_none by assumption. destruct (Z.ltb_spec (cH c) 32); [|lia]. cbn [bind].
    unfold cand. rewrite Z.land_0_r. reflexivity.
  - intros E0 H32. rewrite E0, Z.sub_0_r. unfold bitset_get.
    rewrite cshr_ub; [reflexivity|]. right. rewrite iw_prom_uint by assumption. unfold pw. lia.
Qed.

Ltac step EQ := match type of EQ with context [bind ?x _] =>
    match x with bind _ _ => fail 1 | _ => let z := fresh "z" in destruct x as [z|] eqn:?; cbn [bind] in EQ; [|discriminate EQ] end end.

Lemma analyze_core c v : valid_cfg c -> real c v -> v <> 0 ->
  let k := reg (cN c) (Z.abs v) in
  let rs := Z.min (cN c - 1) (sft k + 2) in
  let es := Z.min (cN c - rs - 1) (ces c) in
  (analyze_ok c -> exists e f g, unpack_low c v = Ok (UL Regular (v <? 0) k e f) /\ cast_msb (cH c) (cF c) f = Ok g /\
     join_reg_exp c k e = Ok (k * 2 ^ ces c + e) /\ 0 <= e < 2 ^ ces c /\
     p_analyze c v = Ok (PInfo false false k (v <? 0) rs es (cN c - rs - es - 1) e (cast c_int (k * 2 ^ ces c + e)) g)) /\
  (~ analyze_ok c -> p_analyze c v = UB ShiftCount).
Proof.
  intros V R NZ k rs es.
  destruct (unpack_low_spec c v V R NZ) as [e [f [UE [He [Hf _]]]]]. fold k in UE.
  vcb V. pose proof (vc_H _ V) as WH. pose proof (vc_F _ V) as WF.
  destruct (real_not_special c v V R) as [RN RI].
  pose proof (real_bounds c BN Bes v R) as RB.
  assert (P : 1 <= Z.abs v < 2 ^ (cN c - 1)) by lia.
  pose proof (pow2_mono (cN c - 1) (cH c - 1) ltac:(lia)) as PM.
  assert (JE : join_reg_exp c k e = Ok (k * 2 ^ ces c + e)).
  { apply join_spec; try assumption. pose proof (reg_inreg c _ V P) as IR. unfold inreg in IR. fold k in IR. lia. }
  assert (CE : cast (tS c) k = k).
  { pose proof (reg_inreg c _ V P) as IR. unfold inreg in IR. fold k in IR. unfold tS. apply cast_s_small; [lia|].
    pose proof (Z.pow_gt_lin_r 2 (cH c - 1) ltac:(lia) ltac:(lia)). lia. }
  (* run unpack_low *)
  pose proof UE as UE'.
  unfold unpack_low in UE. rewrite RI, RN in UE. destruct (Z.eqb_spec v 0) as [|_]; [contradiction|].
  set (sg := negb (cand v (SIGNBIT c) =? 0)) in UE.
  assert (PA : (if sg then let! r := cneg (prom (tS c)) v in Ok (cast (tS c) r) else Ok v) = pcabs (cH c) v
               \/ sg <> (v <? 0)).
  { destruct (bool_dec sg (v <? 0)) as [SG|SG]; [left|right; assumption]. rewrite SG. rewrite pcabs_abs by (assumption || lia).
    destruct (Z.ltb_spec v 0).
    - unfold cneg, tS. pose proof (pw_ge_w _ WH). rewrite arith_ps by (assumption || lia). cbn [bind].
      rewrite cast_s_small by lia. f_equal. lia.
    - f_equal. lia. }
  assert (SG : sg = (v <? 0)).
  { clear PA. repeat step UE. unfold ul_mk in UE. injection UE as A _ _ _. assumption. }
  destruct PA as [PA|PA]; [|contradiction]. rewrite PA in UE. rewrite pcabs_abs in UE by (assumption || lia). cbn [bind] in UE.
  unfold p_analyze. rewrite RI, RN. destruct (Z.eqb_spec v 0) as [|_]; [contradiction|].
  fold sg. rewrite pcabs_abs by (assumption || lia). cbn [bind].
  assert (E1 : exists p1, cshl (prom (tS c)) (Z.abs v) (EXTRA_BITS c + 1) = Ok p1 /\ cast (tU c) p1 = Z.abs v * 2 ^ (cH c - cN c + 1)).
  { unfold EXTRA_BITS, tS, tU. apply cshl_s; try assumption; try (unfold pw; lia).
    assert (EQ : 2 ^ cH c = 2 ^ (cN c - 1) * 2 ^ (cH c - cN c + 1)) by (rewrite <- Z.pow_add_r by lia; f_equal; lia).
    rewrite EQ. pow_pos 2 (cH c - cN c + 1). nia. }
  destruct E1 as [p1 [E1 E2]]. rewrite E1 in UE |- *. cbn [bind] in UE |- *.
  pose proof (decode_spec c (Z.abs v) V P) as D. fold k in D. fold rs in D.
  rewrite E2, D in UE. rewrite E2, D. cbn [bind fst snd] in UE |- *.
  step UE. cbn [bind].
  assert (X : 0 <= cast (tU c) z < 2 ^ cH c).
  { unfold tU. rewrite cast_u. apply Z.mod_pos_bound. pow_pos 2 (cH c). lia. }
  destruct (leftmost_get c (cast (tU c) z) V X) as [G1 G2].
  step UE. step UE. unfold ul_mk in UE. injection UE as _ _ EE EF.
  destruct (frac_move c (cast (tU c) z1) V) as [F1 F2].
  { unfold tU. rewrite cast_u. apply Z.mod_pos_bound. pow_pos 2 (cH c). lia. }
  assert (ES : (if cN c - rs - 1 <? ces c then cN c - rs - 1 else ces c) = es)
    by (unfold es; destruct (Z.ltb_spec (cN c - rs - 1) (ces c)); lia).
  rewrite ES.
  assert (Z0 : 0 <= z0 < 2 ^ cH c).
  { unfold bitset_leftmost_get_const in Heqr0. pow_pos 2 (cH c). destruct (ces c =? 0); [injection Heqr0 as <-; lia|].
    unfold bitset_get in Heqr0. repeat step Heqr0. injection Heqr0 as <-. rewrite cast_u. apply Z.mod_pos_bound. lia. }
  assert (EZ : z0 = e) by (unfold tU in EE; rewrite cast_u_small in EE by assumption; assumption).
  assert (Cf : cast (tU c) z1 = f).
  { rewrite <- EF. unfold tU. rewrite (cast_u_small (cH c) (cast (uint (cH c)) z1)); [reflexivity|].
    rewrite cast_u. apply Z.mod_pos_bound. pow_pos 2 (cH c). lia. }
  split.
  - intros [A1 A2]. rewrite (G1 A1). cbn [bind].
    destruct (F1 A2) as [r [F3 F4]]. rewrite F3. cbn [bind]. rewrite CE, EZ, JE. cbn [bind].
    exists e, f, (cast (uint (cF c)) r). split; [assumption|]. split; [congruence|]. split; [assumption|]. split; [assumption|].
    rewrite SG. reflexivity.
  - intros NA. destruct (Z_le_gt_dec (ces c) 0) as [A1|A1]; [destruct (Z_lt_le_dec (cH c) 32) as [A2|A2]|].
    + assert (A3 : cF c = 64 /\ cH c < 64).
      { unfold analyze_ok in NA. unfold is_width in *. lia. }
      rewrite G1 by lia. cbn [bind]. rewrite F2 by lia. reflexivity.
    + rewrite G2 by lia. reflexivity.
    + assert (A3 : cF c = 64 /\ cH c < 64).
      { unfold analyze_ok in NA. unfold is_width in *. lia. }
      rewrite G1 by lia. cbn [bind]. rewrite F2 by lia. reflexivity.
Qed.

(** The regime found by the arithmetic characterisation is the run length of the bit string. *)
Lemma run_reg N p : 3 <= N -> 1 <= p < 2 ^ (N - 1) ->
  exists b l, bits_of (Z.to_nat (N - 1)) p = b :: l /\
    let r := Z.of_nat (run b (b :: l)) in
    reg N p = (if b then r - 1 else - r) /\ r = sft (reg N p) + 1.
Proof.
  intros HN P. destruct (reg_spec N HN p P) as [R B].
  set (k := reg N p) in *. set (r := p - base N k).
  assert (Rb : 0 <= r < cnt N k) by (unfold r; lia).
  assert (Ep : p = base N k + r) by (unfold r; lia). clearbody r k. rewrite Ep.
  set (m := Z.to_nat (N - 3 - sft k)).
  assert (Rm : 0 <= r < 2 ^ Z.of_nat m).
  { unfold cnt in Rb. destruct (Z.eqb_spec k (N - 2)).
    - pose proof (Z.pow_pos_nonneg 2 (Z.of_nat m) ltac:(lia) ltac:(lia)). lia.
    - destruct (sft_bound N HN k R) as [S0 [S1 S2]]. unfold m. rewrite Z2Nat.id; lia. }
  unfold inreg in R.
  destruct (Z_lt_le_dec k 0) as [K|K].
  - assert (Hb : base N k = 2 ^ (N - 2 + k)) by (unfold base; destruct (Z.leb_spec 0 k); lia).
    assert (Hs : sft k = - k - 1) by (unfold sft; destruct (Z.leb_spec 0 k); lia).
    assert (Hm : Z.of_nat m = N - 2 + k) by (unfold m; rewrite Hs, ?Z2Nat.id; lia).
    assert (BL : bits_of (Z.to_nat (N - 1)) (base N k + r) =
                 repeat false (Z.to_nat (- k)) ++ true :: bits_of m r).
    { replace (Z.to_nat (N - 1)) with (Z.to_nat (- k) + (1 + m))%nat by lia.
      rewrite Hb, <- Hm.
      replace (2 ^ Z.of_nat m + r) with (0 * 2 ^ Z.of_nat (1 + m) + (1 * 2 ^ Z.of_nat m + r)) by lia.
      rewrite bits_of_app.
      - rewrite bits_of_zero. f_equal. rewrite bits_of_app by lia. reflexivity.
      - replace (Z.of_nat (1 + m)) with (Z.of_nat m + 1) by lia. rewrite pow2_S by lia. lia. }
    rewrite BL.
    assert (HF : exists l, repeat false (Z.to_nat (- k)) ++ true :: bits_of m r = false :: l).
    { destruct (Z.to_nat (- k)) as [|n] eqn:En; [lia|]. cbn [repeat app]. eauto. }
    destruct HF as [l Hl]. exists false, l. split; [assumption|]. cbv zeta. rewrite <- Hl.
    change true with (negb false). rewrite run_repeat. lia.
  - assert (Hb : base N k = 2 ^ (N - 1) - 2 ^ (N - 2 - k))
      by (unfold base; destruct (Z.leb_spec 0 k); lia).
    assert (Hs : sft k = k) by (unfold sft; destruct (Z.leb_spec 0 k); lia).
    destruct (Z.eq_dec k (N - 2)) as [E|E].
    + assert (r = 0) by (unfold cnt in Rb; destruct (Z.eqb_spec k (N - 2)); lia). subst r.
      assert (BL : bits_of (Z.to_nat (N - 1)) (base N k + 0) = repeat true (Z.to_nat (N - 1))).
      { rewrite Hb, E. replace (N - 2 - (N - 2)) with 0 by lia. rewrite Z.pow_0_r, Z.add_0_r.
        replace (2 ^ (N - 1)) with (2 ^ Z.of_nat (Z.to_nat (N - 1))) by (rewrite Z2Nat.id; lia).
        apply bits_of_ones. }
      rewrite BL.
      assert (HF : exists l, repeat true (Z.to_nat (N - 1)) = true :: l).
      { destruct (Z.to_nat (N - 1)) as [|n] eqn:En; [lia|]. cbn [repeat]. eauto. }
      destruct HF as [l Hl]. exists true, l. split; [assumption|]. cbv zeta. rewrite <- Hl.
      rewrite run_repeat_end. lia.
    + assert (Hm : Z.of_nat m = N - 3 - k) by (unfold m; rewrite Hs, ?Z2Nat.id; lia).
      assert (BL : bits_of (Z.to_nat (N - 1)) (base N k + r) =
                 repeat true (Z.to_nat (k + 1)) ++ false :: bits_of m r).
      { replace (Z.to_nat (N - 1)) with (Z.to_nat (k + 1) + (1 + m))%nat by lia.
        assert (EB : base N k + r =
           (2 ^ Z.of_nat (Z.to_nat (k + 1)) - 1) * 2 ^ Z.of_nat (1 + m) + (0 * 2 ^ Z.of_nat m + r)).
        { rewrite Hb. replace (N - 1) with (Z.of_nat (Z.to_nat (k + 1)) + Z.of_nat (1 + m)) by lia.
          rewrite Z.pow_add_r by lia. replace (N - 2 - k) with (Z.of_nat (1 + m)) by lia. lia. }
        rewrite EB. rewrite bits_of_app.
        - rewrite bits_of_ones. f_equal. rewrite bits_of_app by lia. reflexivity.
        - replace (Z.of_nat (1 + m)) with (Z.of_nat m + 1) by lia. rewrite pow2_S by lia. lia. }
      rewrite BL.
      assert (HF : exists l, repeat true (Z.to_nat (k + 1)) ++ false :: bits_of m r = true :: l).
      { destruct (Z.to_nat (k + 1)) as [|n] eqn:En; [lia|]. cbn [repeat app]. eauto. }
      destruct HF as [l Hl]. exists true, l. split; [assumption|]. cbv zeta. rewrite <- Hl.
      change false with (negb true). rewrite run_repeat. lia.
Qed.

Lemma analyze_fields c v : valid_cfg c -> real c v -> v <> 0 -> analyze_ok c ->
  exists i b l, p_analyze c v = Ok i /\ i_infinity i = false /\ i_nan i = false /\ i_sign i = (v <? 0) /\
    bits_of (Z.to_nat (cN c - 1)) (Z.abs v) = b :: l /\
    (let r := Z.of_nat (run b (b :: l)) in
     i_k i = (if b then r - 1 else - r) /\ i_rs i = Z.min (cN c - 1) (r + 1)) /\
    1 + i_rs i + i_es i + i_fs i = cN c /\ 0 <= i_es i <= ces c /\ 0 <= i_fs i /\ (i_es i < ces c -> i_fs i = 0) /\
    0 <= i_exp i < 2 ^ ces c /\ 0 <= i_ifraction i < 2 ^ cF c /\
    (frac_fits c -> (value c v == uvalue (cF c) (i_sign i) (i_k i * 2 ^ ces c + i_exp i) (i_ifraction i))%Q) /\
    ((cN c - 1) * 2 ^ ces c <= 2 ^ 31 -> i_exponent i = i_k i * 2 ^ ces c + i_exp i).
Proof.
  intros V R NZ A. destruct (analyze_core c v V R NZ) as [AC _]. destruct (AC A) as (e & f & g & U1 & U2 & U3 & He & PA).
  vcb V. pose proof (real_bounds c BN Bes v R) as RB. assert (P : 1 <= Z.abs v < 2 ^ (cN c - 1)) by lia.
  destruct (run_reg (cN c) (Z.abs v) ltac:(lia) P) as (b & l & BL & K1 & K2).
  set (k := reg (cN c) (Z.abs v)) in *. pose proof (reg_inreg c _ V P) as IR. unfold inreg in IR. fold k in IR.
  eexists _, b, l. split; [exact PA|]. cbn [i_infinity i_nan i_sign i_k i_rs i_es i_fs i_exp i_exponent i_ifraction].
  assert (S0 : 0 <= sft k) by (unfold sft; destruct (Z.leb_spec 0 k); lia).
  split; [reflexivity|]. split; [reflexivity|]. split; [reflexivity|]. split; [assumption|].
  split; [split; [assumption|f_equal; lia]|].
  split; [lia|]. split; [lia|]. split; [lia|]. split; [lia|]. split; [assumption|].
  assert (UN : unpack c v = Ok (U Regular (v <? 0) (k * 2 ^ ces c + e) g)).
  { unfold unpack. rewrite U1. cbn [bind]. unfold unpacked_low2full. cbn [ltyp lneg lreg lexp lfrac]. rewrite U2. cbn [bind].
    rewrite U3. reflexivity. }
  split.
  { destruct (decode_trunc c v V R NZ) as (e' & f' & D1 & D2 & _). rewrite UN in D1. injection D1 as _ <-. assumption. }
  split.
  - intros FF. destruct (decode_value c v V FF R NZ) as (n' & e' & f' & D1 & D2 & D3). rewrite UN in D1. injection D1 as <- <- <-. assumption.
  - intros FI. unfold c_int. apply cast_s_small; [lia|]. pow_pos 2 (ces c). change (2 ^ (32 - 1)) with (2 ^ 31). nia.
Qed.

Lemma analyze_undefined c v : valid_cfg c -> real c v -> v <> 0 -> ~ analyze_ok c -> p_analyze c v = UB ShiftCount.
Proof. intros V R NZ A. exact (proj2 (analyze_core c v V R NZ) A). Qed.

Lemma analyze_special c v : valid_cfg c ->
  (is_inf c v -> exists i, p_analyze c v = Ok i /\ i_infinity i = true /\ i_nan i = false) /\
  (is_nan c v -> exists i, p_analyze c v = Ok i /\ i_infinity i = false /\ i_nan i = true) /\
  (v = 0 -> exists i, p_analyze c v = Ok i /\ i_infinity i = false /\ i_nan i = false /\ i_ifraction i = 0 /\ i_rs i = 0).
Proof.
  intros V. vcb V. split; [|split]; unfold p_analyze.
  - intros I. apply isinf_spec in I; [|assumption]. rewrite I. eexists. split; [reflexivity|]. split; reflexivity.
  - intros I. assert (NI : isinfinity c v = false).
    { destruct (isinfinity c v) eqn:E; [|reflexivity]. apply isinf_spec in E; [|assumption].
      destruct (kinds_disjoint c v V) as [D _]. exfalso. apply D. split; assumption. }
    apply isNaN_spec in I; [|assumption]. rewrite NI, I. eexists. split; [reflexivity|]. split; reflexivity.
  - intros ->. assert (R0 : real c 0).
    { unfold real, maxreal. pow_pos 2 (cN c - 2). assert (2 ^ (cN c - 1) = 2 * 2 ^ (cN c - 2)) by (rewrite <- pow2_S by lia; f_equal; lia).
      destruct (csp c); lia. }
    destruct (real_not_special c 0 V R0) as [A B]. rewrite A, B. eexists. split; [reflexivity|]. repeat split; reflexivity.
Qed.
