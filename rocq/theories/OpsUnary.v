(** inv, half, twice, next, prev, abs. *)
From Coq Require Import ZArith QArith Qabs Lia Lqa Bool List.
From Verif Require Import Res CInt Bits Traits Unpacked Cfg Posit Spec QPow Core SpecLemmas Arith
  DecodeProof EncodeProof UOps UAdd Ops OpsAdd.
Open Scope Z_scope.

(** Coordinate at granularity [gran] of a low level triple. *)
Definition lcoord (c : cfg) (k e f : Z) : Z := ((k * 2 ^ ces c + e) * 2 ^ cH c + f) / 2 ^ (cH c - gran c).

Lemma lcoord_yrange c k e f : valid_cfg c -> inreg (cN c) k -> 0 <= e < 2 ^ ces c -> 0 <= f < 2 ^ cH c ->
  yrange (cN c) (lcoord c k e f) /\ lcoord c k e f / 2 ^ (cN c - 3) = k.
Proof.
  intros V R He Hf. vcb V. unfold lcoord. set (G := gran c). assert (HG : G = cN c - 3 - ces c) by reflexivity.
  assert (E : ((k * 2 ^ ces c + e) * 2 ^ cH c + f) / 2 ^ (cH c - G) / 2 ^ (cN c - 3) = k).
  { rewrite div_div2 by lia. replace (cH c - G + (cN c - 3)) with (ces c + cH c) by lia.
    rewrite Z.pow_add_r by lia.
    pose proof (ef_bound e (2 ^ ces c) f (2 ^ cH c) He Hf) as B.
    symmetry. apply (Z.div_unique _ _ _ (e * 2 ^ cH c + f)); [lia|ring]. }
  split; [|assumption]. unfold yrange. rewrite E. assumption.
Qed.

Lemma ppk_selects c y : valid_cfg c -> yrange (cN c) y -> ppk (cN c) y <= maxreal c ->
  selects c y (ppk (cN c) y).
Proof.
  intros V Y M. vcb V. pose proof (ppk_bounds (cN c) BN y Y) as B.
  split; [lia|]. split.
  - left. apply (proj1 (galois (cN c) BN (ppk (cN c) y) y B Y)). lia.
  - destruct (Z.eq_dec (ppk (cN c) y) (maxreal c)) as [|NE]; [left; assumption|right].
    pose proof (maxreal_bounds c BN Bes) as MB.
    destruct (Z_lt_le_dec y (pdec (cN c) (ppk (cN c) y + 1))) as [|L]; [assumption|exfalso].
    apply (proj2 (galois (cN c) BN (ppk (cN c) y + 1) y ltac:(lia) Y)) in L. lia.
Qed.

Lemma selects_rounds c neg x y v : valid_cfg c -> selects c y v ->
  (lval (gran c) y <= x)%Q -> (x < lval (gran c) (y + 1))%Q -> rounds_tz c (sgq neg x) (sg neg v).
Proof.
  intros V [S1 [S2 S3]] L U. vcb V. pose proof (gran_nonneg c BN Bes) as G.
  pose proof (lval_pos (gran c) y G) as LP.
  assert (D : down_pos c x v) by (eapply trunc_coord; eassumption).
  unfold rounds_tz, sgq, sg. destruct neg.
  - right; right. split; [lra|]. rewrite Z.opp_involutive. eapply down_pos_comp; try eassumption. ring.
  - right; left. split; [lra|assumption].
Qed.

Lemma lcoord_cell c k e f : valid_cfg c ->
  let y := (k * 2 ^ ces c + e) * 2 ^ cH c + f in
  (lval (gran c) (lcoord c k e f) <= lval (cH c) y)%Q /\ (lval (cH c) y < lval (gran c) (lcoord c k e f + 1))%Q.
Proof.
  intros V y. vcb V. pose proof (gran_nonneg c BN Bes) as G. assert (HG : gran c = cN c - 3 - ces c) by reflexivity.
  rewrite <- !(lval_coarse (gran c) (cH c)) by lia.
  unfold lcoord. fold y. set (m := cH c - gran c). pow_pos 2 m.
  pose proof (Z.div_mod y (2 ^ m) ltac:(lia)). pose proof (Z.mod_pos_bound y (2 ^ m) ltac:(lia)).
  split; [apply lval_le|apply lval_lt]; lia.
Qed.

(** pack_low truncates, as long as it does not hit the pattern of the infinity. *)
Lemma pack_low_rounds c neg k e f r : valid_cfg c -> inreg (cN c) k -> 0 <= e < 2 ^ ces c -> 0 <= f < 2 ^ cH c ->
  ppk (cN c) (lcoord c k e f) <= maxreal c ->
  pack_low c (UL Regular neg k e f) = Ok r ->
  rounds_tz c (sgq neg (lval (cH c) ((k * 2 ^ ces c + e) * 2 ^ cH c + f))) r.
Proof.
  intros V R He Hf M P. rewrite pack_low_spec in P by assumption.
  destruct (packable c k); [|discriminate]. injection P as <-.
  destruct (lcoord_yrange c k e f V R He Hf) as [Y _].
  destruct (lcoord_cell c k e f V) as [L U].
  eapply selects_rounds; try eassumption. apply ppk_selects; assumption.
Qed.

Lemma pack_low_defined c neg k e f : valid_cfg c -> roomy c -> inreg (cN c) k ->
  0 <= e < 2 ^ ces c -> 0 <= f < 2 ^ cH c -> exists r, pack_low c (UL Regular neg k e f) = Ok r.
Proof.
  intros V Rm R He Hf. rewrite pack_low_spec by assumption. rewrite roomy_packable by assumption. eauto.
Qed.

(** Value of a real posit in terms of its low level triple. *)
Lemma unpack_low_val c v : valid_cfg c -> real c v -> v <> 0 ->
  exists k e f, unpack_low c v = Ok (UL Regular (v <? 0) k e f) /\ k = reg (cN c) (Z.abs v) /\
    inreg (cN c) k /\ 0 <= e < 2 ^ ces c /\ 0 <= f < 2 ^ cH c /\
    lcoord c k e f = pdec (cN c) (Z.abs v) /\
    (k * 2 ^ ces c + e) * 2 ^ cH c + f = pdec (cN c) (Z.abs v) * 2 ^ (cH c - gran c) /\
    (value c v == sgq (v <? 0) (lval (cH c) ((k * 2 ^ ces c + e) * 2 ^ cH c + f)))%Q /\
    (k = cN c - 2 -> e = 0 /\ f = 0 /\ Z.abs v = 2 ^ (cN c - 1) - 1).
Proof.
  intros V R NZ. vcb V. pose proof (real_bounds c BN Bes v R) as RB.
  destruct (unpack_low_spec c v V R NZ) as [e [f [U1 [He [Hf EQ]]]]].
  set (k := reg (cN c) (Z.abs v)) in *.
  assert (IR : inreg (cN c) k) by (apply (reg_spec (cN c) BN); lia).
  assert (HG : gran c = cN c - 3 - ces c) by reflexivity.
  exists k, e, f. split; [exact U1|]. split; [reflexivity|]. split; [exact IR|].
  split; [exact He|]. split; [exact Hf|]. split; [|split; [exact EQ|split]].
  - unfold lcoord. rewrite EQ, Z.div_mul; [reflexivity|]. pow_pos 2 (cH c - gran c). lia.
  - rewrite EQ.
    assert (E : (lval (cH c) (pdec (cN c) (Z.abs v) * 2 ^ (cH c - gran c)) == value c (Z.abs v))%Q).
    { rewrite lval_coarse by lia. symmetry. apply (value_pos_lval c BN Bes). lia. }
    rewrite (sgq_comp _ _ _ E).
    unfold sgq. destruct (Z.ltb_spec v 0).
    + replace (Z.abs v) with (- v) by lia. rewrite vopp. ring.
    + replace (Z.abs v) with v by lia. reflexivity.
  - intros KE.
    assert (A : Z.abs v = 2 ^ (cN c - 1) - 1).
    { destruct (reg_spec (cN c) BN (Z.abs v) ltac:(lia)) as [_ B]. fold k in B. rewrite KE in B.
      rewrite base_last in B by assumption. unfold cnt in B. rewrite Z.eqb_refl in B. lia. }
    rewrite A, (pdec_last (cN c) BN) in EQ. rewrite KE in EQ.
    replace ((cN c - 2) * 2 ^ (cN c - 3) * 2 ^ (cH c - gran c)) with ((cN c - 2) * 2 ^ ces c * 2 ^ cH c) in EQ
      by (rewrite <- !Z.mul_assoc, <- !Z.pow_add_r by lia; do 2 f_equal; lia).
    assert (Q : e * 2 ^ cH c + f = 0) by lia. pow_pos 2 (cH c).
    assert (e = 0) by nia. subst e. split; [reflexivity|]. split; [lia|assumption].
Qed.

Lemma lval_shift H y j : 0 <= H -> (lval H (y + j * 2 ^ H) == lval H y * pow2 j)%Q.
Proof.
  intros G. pow_pos 2 H. unfold lval. rewrite Z.mod_add, Z.div_add by lia.
  unfold dy. replace (y / 2 ^ H + j - H) with (y / 2 ^ H - H + j) by lia. rewrite pow2_plus. ring.
Qed.

Lemma reg_cast c k : valid_cfg c -> - cN c <= k <= cN c -> cast (tS c) k = k.
Proof.
  intros V K. vcb V. unfold tS. apply cast_s_small; [lia|].
  destruct (vc_H _ V) as [W|[W|[W|W]]]; rewrite W in *; cbn; lia.
Qed.
Lemma reg_arith c k : valid_cfg c -> - cN c - 2 <= k <= cN c + 2 -> arith (prom (tS c)) k = Ok k.
Proof.
  intros V K. vcb V. unfold tS. apply arith_ps; [apply vc_H; assumption|].
  pose proof (pw_ge (cH c)). destruct (vc_H _ V) as [W|[W|[W|W]]]; rewrite W in *; cbn; lia.
Qed.
Lemma exp_cast c e : valid_cfg c -> 0 <= e < 2 ^ ces c -> cast (tU c) e = e.
Proof.
  intros V E. vcb V. unfold tU. apply cast_u_small. pose proof (pow2_mono (ces c) (cH c)). lia.
Qed.

(** ** half *)
Lemma p_half_core c v : valid_cfg c -> real c v -> v <> 0 -> v <> 1 -> v <> -1 ->
  exists n k e f, p_half c v = pack_low c (UL Regular n k e f) /\ inreg (cN c) k /\
    0 <= e < 2 ^ ces c /\ 0 <= f < 2 ^ cH c /\ ppk (cN c) (lcoord c k e f) <= maxreal c /\
    (value c v * (1 # 2) == sgq n (lval (cH c) ((k * 2 ^ ces c + e) * 2 ^ cH c + f)))%Q.
Proof.
  intros V R NZ N1 N2. vcb V. pose proof (real_bounds c BN Bes v R) as RB.
  destruct (unpack_low_val c v V R NZ) as [k [e [f [U1 [EK [IR [He [Hf [LC [EQ [VV KM]]]]]]]]]]].
  unfold p_half. rewrite U1. cbn [bind ltyp lexp lreg lneg lfrac]. pow_pos 2 (ces c). unfold REG_SCALE.
  assert (HALF : forall k' e', inreg (cN c) k' -> 0 <= e' < 2 ^ ces c -> k' * 2 ^ ces c + e' = k * 2 ^ ces c + e - 1 ->
    ppk (cN c) (lcoord c k' e' f) <= maxreal c /\
    (value c v * (1 # 2) == sgq (v <? 0) (lval (cH c) ((k' * 2 ^ ces c + e') * 2 ^ cH c + f)))%Q).
  { intros k' e' IR' He' EE. split.
    - destruct (lcoord_yrange c k' e' f V IR' He' Hf) as [Y' _].
      assert (A : ppk (cN c) (lcoord c k' e' f) <= Z.abs v).
      { pose proof (ppk_bounds (cN c) BN _ Y') as PB.
        apply (pdec_le_inv (cN c) BN); [assumption|lia|]. rewrite <- LC.
        transitivity (lcoord c k' e' f); [apply (proj1 (galois (cN c) BN _ _ PB Y')); lia|].
        unfold lcoord. assert (HG : gran c = cN c - 3 - ces c) by reflexivity.
        pow_pos 2 (cH c - gran c). apply Z.div_le_mono; [assumption|]. rewrite EE. pow_pos 2 (cH c). lia. }
      unfold real in R. lia.
    - rewrite VV, EE.
      replace ((k * 2 ^ ces c + e - 1) * 2 ^ cH c + f) with
        ((k * 2 ^ ces c + e) * 2 ^ cH c + f + (-1) * 2 ^ cH c) by ring.
      rewrite (sgq_comp _ _ _ (lval_shift (cH c) ((k * 2 ^ ces c + e) * 2 ^ cH c + f) (-1) ltac:(lia))).
      change (pow2 (-1)) with (1 # 2)%Q. destruct (v <? 0); cbn [sgq]; ring. }
  destruct (Z.eqb_spec e 0) as [E0|E0].
  - assert (KL : - (cN c - 2) < k).
    { destruct (Z.eq_dec k (- (cN c - 2))) as [KE|]; [exfalso|unfold inreg in IR; lia].
      assert (EA : Z.abs v = 1); [|lia].
      destruct (reg_spec (cN c) BN (Z.abs v) ltac:(lia)) as [_ B]. rewrite <- EK, KE in B.
      rewrite base_first in B by assumption. unfold cnt in B.
      destruct (Z.eqb_spec (- (cN c - 2)) (cN c - 2)); [lia|].
      unfold sft in B. destruct (Z.leb_spec 0 (- (cN c - 2))); [lia|].
      replace (cN c - 3 - (- - (cN c - 2) - 1)) with 0 in B by lia. change (2 ^ 0) with 1 in B. lia. }
    unfold csub. rewrite reg_arith by (try assumption; unfold inreg in IR; lia). cbn [bind].
    rewrite reg_cast by (try assumption; unfold inreg in IR; lia). rewrite exp_cast by (try assumption; lia).
    destruct (HALF (k - 1) (2 ^ ces c - 1)) as [A B]; [unfold inreg in *; lia|lia|subst e; ring|].
    exists (v <? 0), (k - 1), (2 ^ ces c - 1), f. split; [reflexivity|]. split; [unfold inreg in *; lia|].
    split; [lia|]. split; [lia|]. split; assumption.
  - rewrite exp_cast by (try assumption; lia).
    destruct (HALF k (e - 1)) as [A B]; [assumption|lia|ring|].
    exists (v <? 0), k, (e - 1), f. split; [reflexivity|]. split; [unfold inreg in *; lia|].
    split; [lia|]. split; [lia|]. split; assumption.
Qed.

Lemma p_half_rounds c v r : valid_cfg c -> real c v -> v <> 1 -> v <> -1 ->
  p_half c v = Ok r -> rounds_tz c (value c v * (1 # 2)) r.
Proof.
  intros V R N1 N2 P. vcb V. destruct (Z.eq_dec v 0) as [->|NZ].
  - destruct (real_not_special c 0 V R) as [A B]. unfold p_half, unpack_low in P. rewrite A, B in P.
    cbn in P. injection P as <-. apply rounds_zero. rewrite v0. ring.
  - destruct (p_half_core c v V R NZ N1 N2) as [n [k [e [f [E [IR [He [Hf [M VV]]]]]]]]].
    rewrite E in P. eapply rounds_tz_comp; try assumption; [symmetry; exact VV|].
    eapply pack_low_rounds; eassumption.
Qed.

Lemma p_half_defined c v : valid_cfg c -> roomy c -> real c v -> v <> 1 -> v <> -1 ->
  exists r, p_half c v = Ok r.
Proof.
  intros V Rm R N1 N2. destruct (Z.eq_dec v 0) as [->|NZ].
  - destruct (real_not_special c 0 V R) as [A B]. unfold p_half, unpack_low. rewrite A, B. eexists; reflexivity.
  - destruct (p_half_core c v V R NZ N1 N2) as [n [k [e [f [E [IR [He [Hf [M VV]]]]]]]]].
    rewrite E. apply pack_low_defined; assumption.
Qed.

(** ** twice, away from the largest magnitude *)
Lemma p_twice_core c v : valid_cfg c -> real c v -> v <> 0 ->
  (Z.abs v < maxreal c \/ 0 < ces c) ->
  exists n k e f, p_twice c v = pack_low c (UL Regular n k e f) /\ inreg (cN c) k /\
    0 <= e < 2 ^ ces c /\ 0 <= f < 2 ^ cH c /\ ppk (cN c) (lcoord c k e f) <= maxreal c /\
    (value c v * (2 # 1) == sgq n (lval (cH c) ((k * 2 ^ ces c + e) * 2 ^ cH c + f)))%Q.
Proof.
  intros V R NZ NM. vcb V. pose proof (real_bounds c BN Bes v R) as RB. pose proof (maxreal_bounds c BN Bes) as MB.
  assert (HG : gran c = cN c - 3 - ces c) by reflexivity.
  destruct (unpack_low_val c v V R NZ) as [k [e [f [U1 [EK [IR [He [Hf [LC [EQ [VV KM]]]]]]]]]]].
  unfold p_twice. rewrite U1. cbn [bind ltyp lexp lreg lneg lfrac]. pow_pos 2 (ces c). unfold REG_SCALE.
  (* the regime of the result *)
  assert (KR : e = 2 ^ ces c - 1 -> k < cN c - 2).
  { intros E. destruct (Z.eq_dec k (cN c - 2)) as [K|]; [|unfold inreg in IR; lia].
    destruct (KM K) as [E0 [_ A]]. destruct NM as [NM|NM].
    - unfold maxreal in NM. destruct (csp c); lia.
    - assert (2 ^ 1 <= 2 ^ ces c) by (apply pow2_mono; lia). change (2 ^ 1) with 2 in *. lia. }
  assert (DBL : forall k' e', inreg (cN c) k' -> 0 <= e' < 2 ^ ces c -> k' * 2 ^ ces c + e' = k * 2 ^ ces c + e + 1 ->
    ppk (cN c) (lcoord c k' e' f) <= maxreal c /\
    (value c v * (2 # 1) == sgq (v <? 0) (lval (cH c) ((k' * 2 ^ ces c + e') * 2 ^ cH c + f)))%Q).
  { intros k' e' IR' He' EE. split.
    - destruct (lcoord_yrange c k' e' f V IR' He' Hf) as [Y' YK].
      pose proof (ppk_bounds (cN c) BN _ Y') as PB.
      destruct (Z_le_gt_dec (ppk (cN c) (lcoord c k' e' f)) (maxreal c)) as [|GT]; [assumption|exfalso].
      assert (SP : csp c = WithNanInf) by (unfold maxreal in GT; destruct (csp c); auto; lia).
      assert (MX : maxreal c = 2 ^ (cN c - 1) - 2) by (unfold maxreal; rewrite SP; reflexivity).
      assert (PP : ppk (cN c) (lcoord c k' e' f) = 2 ^ (cN c - 1) - 1) by lia.
      (* regime would be N-2 *)
      assert (RK : reg (cN c) (2 ^ (cN c - 1) - 1) = k').
      { rewrite <- PP. rewrite (ppk_reg (cN c) BN _ Y'). assumption. }
      assert (RN : reg (cN c) (2 ^ (cN c - 1) - 1) = cN c - 2).
      { apply reg_unique; [assumption|unfold inreg; lia|]. rewrite base_last by assumption.
        unfold cnt. rewrite Z.eqb_refl. lia. }
      assert (KK : k' = cN c - 2) by lia.
      (* but then v was beyond the largest real *)
      assert (YV : pdec (cN c) (Z.abs v) <= (cN c - 3) * 2 ^ (cN c - 3)).
      { rewrite <- (pdec_last2 (cN c) BN). apply (pdec_le (cN c) BN); unfold real in R; lia. }
      rewrite <- LC in YV.
      assert (Y2 : (k * 2 ^ ces c + e) * 2 ^ cH c + f <= (cN c - 3) * 2 ^ ces c * 2 ^ cH c).
      { rewrite LC in YV. rewrite EQ.
        replace ((cN c - 3) * 2 ^ ces c * 2 ^ cH c) with ((cN c - 3) * 2 ^ (cN c - 3) * 2 ^ (cH c - gran c))
          by (rewrite <- !Z.mul_assoc, <- !Z.pow_add_r by lia; do 2 f_equal; lia).
        apply Z.mul_le_mono_nonneg_r; [apply Z.pow_nonneg; lia|assumption]. }
      rewrite KK in EE. pow_pos 2 (cH c).
      assert (Q : k * 2 ^ ces c + e <= (cN c - 3) * 2 ^ ces c).
      { apply (Z.mul_le_mono_pos_r _ _ (2 ^ cH c)); [assumption|lia]. }
      assert (2 ^ ces c = 1) by lia.
      assert (ES : ces c = 0).
      { destruct (Z.eq_dec (ces c) 0); [assumption|]. pose proof (pow2_mono 1 (ces c) ltac:(lia)) as P1.
        change (2 ^ 1) with 2 in P1. lia. }
      destruct NM as [NM|NM]; [|lia].
      assert (YS : pdec (cN c) (Z.abs v) < (cN c - 3) * 2 ^ (cN c - 3)).
      { rewrite <- (pdec_last2 (cN c) BN). apply (pdec_lt (cN c) BN); unfold real in R; lia. }
      assert (Y3 : (k * 2 ^ ces c + e) * 2 ^ cH c + f < (cN c - 3) * 2 ^ ces c * 2 ^ cH c).
      { rewrite EQ.
        replace ((cN c - 3) * 2 ^ ces c * 2 ^ cH c) with ((cN c - 3) * 2 ^ (cN c - 3) * 2 ^ (cH c - gran c))
          by (rewrite <- !Z.mul_assoc, <- !Z.pow_add_r by lia; do 2 f_equal; lia).
        apply Z.mul_lt_mono_pos_r; [apply Z.pow_pos_nonneg; lia|assumption]. }
      assert (Q2 : k * 2 ^ ces c + e < (cN c - 3) * 2 ^ ces c).
      { apply (Z.mul_lt_mono_pos_r (2 ^ cH c)); [assumption|lia]. }
      lia.
    - rewrite VV, EE.
      replace ((k * 2 ^ ces c + e + 1) * 2 ^ cH c + f) with
        ((k * 2 ^ ces c + e) * 2 ^ cH c + f + 1 * 2 ^ cH c) by ring.
      rewrite (sgq_comp _ _ _ (lval_shift (cH c) ((k * 2 ^ ces c + e) * 2 ^ cH c + f) 1 ltac:(lia))).
      change (pow2 1) with (2 # 1)%Q. destruct (v <? 0); cbn [sgq]; ring. }
  destruct (Z.eqb_spec e (2 ^ ces c - 1)) as [E0|E0].
  - specialize (KR E0). unfold cadd. rewrite reg_arith by (try assumption; unfold inreg in IR; lia). cbn [bind].
    rewrite reg_cast by (try assumption; unfold inreg in IR; lia).
    destruct (DBL (k + 1) 0) as [A B]; [unfold inreg in *; lia|lia|subst e; ring|].
    exists (v <? 0), (k + 1), 0, f. split; [reflexivity|]. split; [unfold inreg in *; lia|].
    split; [lia|]. split; [lia|]. split; assumption.
  - rewrite exp_cast by (try assumption; lia).
    destruct (DBL k (e + 1)) as [A B]; [assumption|lia|ring|].
    exists (v <? 0), k, (e + 1), f. split; [reflexivity|]. split; [unfold inreg in *; lia|].
    split; [lia|]. split; [lia|]. split; assumption.
Qed.

Lemma p_twice_rounds0 c v r : valid_cfg c -> real c v -> (Z.abs v < maxreal c \/ 0 < ces c) ->
  p_twice c v = Ok r -> rounds_tz c (value c v * (2 # 1)) r.
Proof.
  intros V R NM P. vcb V. destruct (Z.eq_dec v 0) as [->|NZ].
  - destruct (real_not_special c 0 V R) as [A B]. unfold p_twice, unpack_low in P. rewrite A, B in P.
    cbn in P. injection P as <-. apply rounds_zero. rewrite v0. ring.
  - destruct (p_twice_core c v V R NZ NM) as [n [k [e [f [E [IR [He [Hf [M VV]]]]]]]]].
    rewrite E in P. eapply rounds_tz_comp; try assumption; [symmetry; exact VV|].
    eapply pack_low_rounds; eassumption.
Qed.
