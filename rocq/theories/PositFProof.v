(** Posits that compute in a float format. *)
From Coq Require Import ZArith QArith Qabs Lia Lqa List Bool.
From Verif Require Import Res CInt Bits Traits Unpacked Cfg Posit Spec SpecFloat FloatOps PositF QPow Core SpecLemmas Arith DecodeProof EncodeProof
  UOps UAdd Ops OpsAdd OpsUnary OpsUnary2 Specials Room Laws Configs Final1 Final2 Final3 Conv1 Conv2 Conv3 Conv4 Conv5 TabProof5 FloatProof.
Open Scope Z_scope.

(** * Numbers of the format *)
Section fmt.
Variables eb fb : Z.
Hypothesis FO : fmt_ok eb fb.

Lemma is_float_comp p q : (p == q)%Q -> is_float eb fb p -> is_float eb fb q.
Proof. intros E (b & x & B & I & X). exists b, x. repeat split; try lia; try assumption. rewrite X. exact E. Qed.
Lemma is_float_mval (s : bool) g : 0 <= g < (2 ^ eb - 1) * 2 ^ fb -> is_float eb fb (sgq s (mval eb fb g)).
Proof using FO.
  intros G. destruct (ieee_code eb fb FO s g G) as (q & I & Q). exists (g + (if s then 2 ^ (eb + fb) else 0)), q.
  split; [|split; [exact I|exact Q]]. pose proof (top_eq eb fb FO). pose proof (fb_pos eb fb FO). destruct FO as [_ [E1 E2] Hf].
  assert (2 ^ (eb + fb + 1) = 2 * 2 ^ (eb + fb)) by (rewrite Z.pow_add_r by lia; ring). destruct s; lia.
Qed.
Lemma is_float_opp q : is_float eb fb q -> is_float eb fb (- q).
Proof using FO.
  intros (b & x & B & I & X). destruct (ieee_code_inv eb fb FO b x B I) as (s & g & G & _ & EQ).
  apply (is_float_comp (sgq (negb s) (mval eb fb g))); [|apply is_float_mval; exact G].
  rewrite <- X, EQ. destruct s; cbn [sgq negb]; ring.
Qed.
Lemma is_float_0 : is_float eb fb 0.
Proof using FO.
  apply (is_float_comp (sgq false (mval eb fb 0))); [cbn [sgq]; apply mval_0; exact FO|]. apply is_float_mval. pose proof (top_pos eb fb FO). lia.
Qed.
Lemma is_float_pow2 j : 2 - 2 ^ (eb - 1) - fb <= j <= 2 ^ (eb - 1) - 1 -> is_float eb fb (pow2 j).
Proof using FO.
  intros J. pose proof (fb_pos eb fb FO) as FP. pose proof (eb_pow eb fb FO) as [EP1 EP2]. pose proof FO as FO'. destruct FO' as [_ [E1 E2] Hf].
  destruct (Z_lt_le_dec j (2 - 2 ^ (eb - 1))) as [L|L].
  - assert (B : 2 ^ (j - (2 - 2 ^ (eb - 1)) + fb) <= 2 ^ fb) by (apply pow2_mono; lia).
    pow_pos 2 (j - (2 - 2 ^ (eb - 1)) + fb).
    apply (is_float_comp (sgq false (mval eb fb (2 ^ (j - (2 - 2 ^ (eb - 1)) + fb))))).
    + cbn [sgq]. rewrite (mval_low eb fb FO) by lia. unfold dy. rewrite <- pow2_Z, <- pow2_plus by lia.
      replace (j - (2 - 2 ^ (eb - 1)) + fb + (2 - 2 ^ (eb - 1) - fb)) with j by lia. reflexivity.
    + apply is_float_mval. nia.
  - apply (is_float_comp (sgq false (mval eb fb ((j - (2 - 2 ^ (eb - 1)) + 1) * 2 ^ fb)))).
    + cbn [sgq]. rewrite mval_ge by nia.
      replace ((j - (2 - 2 ^ (eb - 1)) + 1) * 2 ^ fb + (2 - 2 ^ (eb - 1) - 1) * 2 ^ fb) with (j * 2 ^ fb + 0) by ring.
      rewrite lval_ef by lia. rewrite Z.add_0_r. unfold dy. rewrite <- pow2_Z, <- pow2_plus by lia. replace (fb + (j - fb)) with j by lia. reflexivity.
    + apply is_float_mval. split; [nia|]. apply Z.mul_lt_mono_pos_r; lia.
Qed.

(** Numbers [m * 2^j] with a short [m]. *)
Lemma is_float_dy m j : 0 <= m < 2 ^ (fb + 1) -> 2 - 2 ^ (eb - 1) - fb <= j -> (dy m j < pow2 (2 ^ (eb - 1)))%Q -> is_float eb fb (dy m j).
Proof using FO.
  intros M J1 J2. pose proof (fb_pos eb fb FO) as FP. pose proof (eb_pow eb fb FO) as [EP1 EP2]. pose proof FO as FO'. destruct FO' as [_ [E1 E2] Hf].
  assert (F1 : 2 ^ (fb + 1) = 2 * 2 ^ fb) by (rewrite Z.pow_add_r by lia; ring).
  destruct (Z.eq_dec m 0) as [->|NZ]; [apply (is_float_comp 0); [symmetry; apply dy_0|apply is_float_0]|].
  set (emin := 2 - 2 ^ (eb - 1)) in *.
  destruct (Z_lt_le_dec (Z.log2 m + j) emin) as [L|L].
  - (* subnormal *)
    assert (JP : 0 <= j - (emin - fb)) by lia. pow_pos 2 (j - (emin - fb)).
    assert (B : m * 2 ^ (j - (emin - fb)) < 2 ^ fb).
    { pose proof (Z.log2_spec m ltac:(lia)) as [_ LS]. assert (P : 2 ^ Z.succ (Z.log2 m) * 2 ^ (j - (emin - fb)) <= 2 ^ fb).
      { pose proof (Z.log2_nonneg m). rewrite <- Z.pow_add_r by lia. apply pow2_mono. lia. } nia. }
    apply (is_float_comp (sgq false (mval eb fb (m * 2 ^ (j - (emin - fb)))))).
    + cbn [sgq]. rewrite (mval_low eb fb FO) by nia. fold emin. rewrite dy_pow by lia. replace (emin - fb + (j - (emin - fb))) with j by lia. reflexivity.
    + apply is_float_mval. split; [nia|]. assert (2 ^ fb <= (2 ^ eb - 1) * 2 ^ fb) by nia. lia.
  - (* normal *)
    set (l := Z.log2 m) in *. pose proof (Z.log2_spec m ltac:(lia)) as [LS1 LS2]. fold l in LS1, LS2.
    assert (L0 : 0 <= l) by apply Z.log2_nonneg.
    assert (LF : l <= fb). { assert (l < fb + 1) by (apply (Z.pow_lt_mono_r_iff 2); lia). lia. }
    set (f := m * 2 ^ (fb - l) - 2 ^ fb). pow_pos 2 (fb - l).
    assert (FE : 2 ^ fb = 2 ^ l * 2 ^ (fb - l)) by (rewrite <- Z.pow_add_r by lia; f_equal; lia).
    rewrite Z.pow_succ_r in LS2 by lia.
    assert (FB : 0 <= f < 2 ^ fb) by (unfold f; nia).
    apply (is_float_comp (sgq false (mval eb fb ((l + j - emin + 1) * 2 ^ fb + f)))).
    + cbn [sgq]. rewrite mval_ge by nia.
      replace ((l + j - emin + 1) * 2 ^ fb + f + (2 - 2 ^ (eb - 1) - 1) * 2 ^ fb) with ((l + j) * 2 ^ fb + f) by (unfold emin; ring).
      rewrite lval_ef by assumption. replace (2 ^ fb + f) with (m * 2 ^ (fb - l)) by (unfold f; ring).
      rewrite dy_pow by lia. replace (l + j - fb + (fb - l)) with j by lia. reflexivity.
    + apply is_float_mval. split; [nia|].
      assert (LJ : l + j < 2 ^ (eb - 1)).
      { apply pow2_lt_inv. eapply Qle_lt_trans; [|exact J2]. unfold dy. rewrite pow2_plus, (pow2_Z l) by lia.
        apply Qmult_le_r; [apply pow2_pos|]. apply inj_le. lia. }
      assert (l + j - emin + 1 <= 2 ^ eb - 2) by (unfold emin in *; lia). nia.
Qed.

Lemma ieee_neg b q : 0 <= b < 2 ^ (eb + fb + 1) -> ieee_val eb fb b = FinVal q -> ~ (q == 0)%Q -> f_neg eb fb b = neg_q q.
Proof using FO.
  intros B I NZ. destruct (ieee_code_inv eb fb FO b q B I) as (s & g & G & EB & EQ). pose proof (top_eq eb fb FO). pose proof (fb_pos eb fb FO).
  assert (GN : g <> 0) by (intros ->; apply NZ; rewrite EQ; destruct s; cbn [sgq]; rewrite (mval_0 eb fb FO); reflexivity).
  pose proof (mval_pos eb fb FO g ltac:(lia)) as MP. unfold f_neg, neg_q. destruct s; cbn [sgq] in EQ.
  - destruct (Z.leb_spec (2 ^ (eb + fb)) b); [|lia]. assert (QB : Qle_bool 0 q = false). { destruct (Qle_bool 0 q) eqn:E; [|reflexivity]. apply Qle_bool_iff in E. lra. } rewrite QB. reflexivity.
  - destruct (Z.leb_spec (2 ^ (eb + fb)) b); [lia|]. assert (QB : Qle_bool 0 q = true) by (apply Qle_bool_iff; lra). rewrite QB. reflexivity.
Qed.
Lemma ieee_neg_inf b s : 0 <= b < 2 ^ (eb + fb + 1) -> ieee_val eb fb b = InfVal s -> f_neg eb fb b = s.
Proof using FO.
  intros B I. destruct (ieee_cases eb fb FO b B) as (Bf & Be & C). rewrite I in C. pose proof (fbits_inv eb fb b FO B) as E.
  pose proof (fb_pos eb fb FO). destruct FO as [_ [E1 E2] Hf].
  assert (EE : 2 ^ (eb + fb) = 2 ^ eb * 2 ^ fb) by (rewrite Z.pow_add_r by lia; reflexivity).
  assert (2 ^ (eb + fb + 1) = 2 * 2 ^ (eb + fb)) by (rewrite Z.pow_add_r by lia; ring).
  assert (SS : s = fsign_of eb fb b) by intuition congruence. rewrite SS. unfold f_neg.
  unfold fbits in E. destruct (fsign_of eb fb b); destruct (Z.leb_spec (2 ^ (eb + fb)) b); try reflexivity; nia.
Qed.

(** * Rounded results *)
Variable rnd : Q -> Z.
Hypothesis RN : rounding eb fb rnd.

Lemma rnd_le x w : is_float eb fb w -> (x <= w)%Q -> forall y, ieee_val eb fb (rnd x) = FinVal y -> (y <= w)%Q.
Proof using RN.
  intros W L y Y. pose proof (rn_mono _ _ _ RN x w L) as M. destruct (rn_exact _ _ _ RN w W) as (z & Z1 & Z2). rewrite Y, Z1 in M. cbn [ext_le] in M. lra.
Qed.
Lemma rnd_ge x w : is_float eb fb w -> (w <= x)%Q -> forall y, ieee_val eb fb (rnd x) = FinVal y -> (w <= y)%Q.
Proof using RN.
  intros W L y Y. pose proof (rn_mono _ _ _ RN w x L) as M. destruct (rn_exact _ _ _ RN w W) as (z & Z1 & Z2). rewrite Y, Z1 in M. cbn [ext_le] in M. lra.
Qed.
Lemma rnd_fin x : (Qabs x <= pow2 (2 ^ (eb - 1) - 1))%Q -> exists y, ieee_val eb fb (rnd x) = FinVal y.
Proof using FO RN.
  intros L. set (M := pow2 (2 ^ (eb - 1) - 1)) in *. pose proof (eb_pow eb fb FO) as [E1 E2]. destruct FO as [_ _ Hf].
  assert (F : is_float eb fb M) by (apply is_float_pow2; lia). pose proof (is_float_opp _ F) as F'.
  apply Qabs_Qle_condition in L. destruct L as [L1 L2].
  pose proof (rn_mono _ _ _ RN _ _ L1) as A. pose proof (rn_mono _ _ _ RN _ _ L2) as B.
  destruct (rn_exact _ _ _ RN _ F) as (z & Z1 & _). destruct (rn_exact _ _ _ RN _ F') as (z' & Z1' & _). rewrite Z1 in B. rewrite Z1' in A.
  destruct (ieee_val eb fb (rnd x)) as [y|[]|]; [exists y; reflexivity| | |]; cbn [ext_le] in *; contradiction.
Qed.
(** The rounded number keeps the sign and, up to the next power of two, the binary exponent. *)
Lemma rnd_scale x e y : scale x e -> 2 - 2 ^ (eb - 1) - fb <= e -> e + 1 <= 2 ^ (eb - 1) - 1 ->
  ieee_val eb fb (rnd x) = FinVal y -> scale y e \/ (Qabs y == pow2 (e + 1))%Q.
Proof using FO RN.
  intros [S1 S2] B1 B2 Y. destruct FO as [_ _ Hf].
  assert (F1 : is_float eb fb (pow2 e)) by (apply is_float_pow2; lia). assert (F2 : is_float eb fb (pow2 (e + 1))) by (apply is_float_pow2; lia).
  assert (R : (pow2 e <= Qabs y)%Q /\ (Qabs y <= pow2 (e + 1))%Q).
  { pose proof (pow2_pos e). destruct (Qlt_le_dec x 0) as [N|P].
    - rewrite Qabs_neg in S1, S2 by lra. pose proof (rnd_le x (- pow2 e) (is_float_opp _ F1) ltac:(lra) y Y).
      pose proof (rnd_ge x (- pow2 (e + 1)) (is_float_opp _ F2) ltac:(lra) y Y). rewrite Qabs_neg by lra. lra.
    - rewrite Qabs_pos in S1, S2 by lra. pose proof (rnd_ge x _ F1 ltac:(lra) y Y). pose proof (rnd_le x _ F2 ltac:(lra) y Y). rewrite Qabs_pos by lra. lra. }
  destruct R as [R1 R2]. destruct (Qlt_le_dec (Qabs y) (pow2 (e + 1))) as [L|L]; [left; split; assumption|right; lra].
Qed.

Lemma faithful_via c x y r : (forall w, real c w -> (value c w <= x)%Q -> (value c w <= y)%Q) ->
  (forall w, real c w -> (x <= value c w)%Q -> (y <= value c w)%Q) -> faithful c y r -> faithful c x r.
Proof.
  intros A B (F1 & F2 & F3 & F4). split; [assumption|]. split; [|split].
  - intros w W E. apply F2; [assumption|]. pose proof (A w W ltac:(lra)). pose proof (B w W ltac:(lra)). lra.
  - intros w W [L1 L2]. pose proof (B w W ltac:(lra)) as H. apply (F3 w W). split; [|assumption].
    destruct (Qlt_le_dec y (value c w)) as [K|K]; [assumption|]. exfalso. assert (r = w) by (apply F2; [assumption|lra]). subst. lra.
  - intros w W [L1 L2]. pose proof (A w W ltac:(lra)) as H. apply (F4 w W). split; [assumption|].
    destruct (Qlt_le_dec (value c w) y) as [K|K]; [assumption|]. exfalso. assert (r = w) by (apply F2; [assumption|lra]). subst. lra.
Qed.

(** Packing a rounded result. *)
Lemma of_rounded c x :
  valid_cfg c -> exp_ok c -> et_holds c eb -> fb <= cF c -> float_covers c eb fb ->
  (x == 0)%Q \/ (pow2 (2 - 2 ^ (eb - 1) - fb) <= Qabs x)%Q /\ (Qabs x < pow2 (2 ^ (eb - 1) - 1))%Q -> room_via c eb fb x ->
  exists r, p_of_float c (any_floattrait eb fb true) (rnd x) = Ok r /\ via_float c eb fb x r.
Proof using FO RN.
  intros V X ET FF FC HX RM. vcb V. pose proof FO as FO'. destruct FO' as [_ [E1 E2] Hf].
  assert (FRF : frac_fits c) by (unfold frac_fits; destruct FC; lia).
  destruct (rnd_fin x) as (y & Y).
  { destruct HX as [H|[_ H]]; [|lra]. rewrite H. pose proof (pow2_pos (2 ^ (eb - 1) - 1)). cbn. unfold Qabs. cbn. lra. }
  pose proof (of_float_wide c eb fb true (rnd x) V X FO ET FF (rn_range _ _ _ RN x)) as O. rewrite Y in O. destruct O as [O1 O2].
  assert (PF : forall w, real c w -> is_float eb fb (value c w)).
  { intros w W. destruct (Z.eq_dec w 0) as [->|NZ]; [apply is_float_0|].
    destruct (covered c eb fb w V FO FRF FC W NZ) as [(b0 & q & B & I & Q) _]. exists b0, q. auto. }
  assert (XY : is_float eb fb x -> (y == x)%Q) by (intros F; destruct (rn_exact _ _ _ RN x F) as (z & Z1 & Z2); rewrite Y in Z1; injection Z1 as <-; exact Z2).
  assert (VIA : forall r, rounds_tz c y r -> via_float c eb fb x r).
  { intros r R. split; [|intros F; apply (rounds_tz_comp c BN Bes y); auto].
    apply (faithful_via c x y); [intros w W L; exact (rnd_ge x _ (PF w W) L y Y)|intros w W L; exact (rnd_le x _ (PF w W) L y Y)|].
    apply rounds_faithful; assumption. }
  assert (EX : exists r, p_of_float c (any_floattrait eb fb true) (rnd x) = Ok r /\ rounds_tz c y r).
  { destruct (Qeq_dec x 0) as [Z0|NZ].
    - assert (Y0 : (y == 0)%Q). { pose proof (rnd_le x 0 is_float_0 ltac:(lra) y Y). pose proof (rnd_ge x 0 is_float_0 ltac:(lra) y Y). lra. }
      exists 0. split; [apply O1; left; assumption|left; split; [assumption|reflexivity]].
    - destruct HX as [H|[H1 H2]]; [contradiction|]. destruct RM as [[H|(e & SC & P1 & P2)]|[F RM]]; [contradiction| |].
      2:{ specialize (XY F). destruct (O2 ltac:(rewrite XY; assumption) (or_introl eq_refl)) as [O3 _]. apply O3.
          apply (room_comp c x); [symmetry; assumption|assumption]. }
      assert (e < 2 ^ (eb - 1) - 1) by (apply pow2_lt_inv; destruct SC; lra).
      assert (2 - 2 ^ (eb - 1) - fb < e + 1) by (apply pow2_lt_inv; destruct SC; lra).
      assert (S : scale y e \/ scale y (e + 1)).
      { destruct (rnd_scale x e y SC ltac:(lia) ltac:(lia) Y) as [S|S]; [left; exact S|].
        right. split; rewrite S; [lra|apply pow2_lt; lia]. }
      assert (YN : ~ (y == 0)%Q).
      { intros K. pose proof (pow2_pos e). pose proof (pow2_pos (e + 1)). destruct S as [[S _]|[S _]]; rewrite K in S; unfold Qabs in S; cbn in S; lra. }
      destruct (O2 YN (or_introl eq_refl)) as [O3 _]. apply O3. right. destruct S as [S|S]; eexists; (split; [exact S|assumption]). }
  destruct EX as (r & R1 & R2). exists r. auto.
Qed.

(** * Posits as floats *)
Section posit.
Variable c : cfg.
Hypothesis V : valid_cfg c.
Hypothesis FC : float_covers c eb fb.
Hypothesis ET : et_holds c eb.
Hypothesis FF : fb <= cF c.
Let tr := any_floattrait eb fb true.

Lemma ff_fits : frac_fits c. Proof using FC FF. unfold frac_fits. destruct FC. lia. Qed.
Lemma ext_of_real v : real c v -> ext_of c v = FinVal (value c v).
Proof using V.
  intros R. unfold ext_of, real, maxreal in *. pose proof (pow_ge4 c V).
  destruct (csp c); destruct (Z.eqb_spec v (- 2 ^ (cN c - 1))); try lia; try reflexivity.
  destruct (Z.eqb_spec v (- 2 ^ (cN c - 1) + 1)); [lia|]. destruct (Z.eqb_spec v (2 ^ (cN c - 1) - 1)); [lia|reflexivity].
Qed.
Lemma ext_of_cases v : pattern c v ->
  (real c v /\ ext_of c v = FinVal (value c v)) \/ (is_nan c v /\ ext_of c v = NaNVal) \/ (is_inf c v /\ ext_of c v = InfVal (v <? 0)).
Proof using V.
  intros P. pose proof (pow_ge4 c V). unfold pattern in P.
  assert (D : real c v \/ ~ real c v) by (unfold real; lia). destruct D as [R|R]; [left; split; [assumption|apply ext_of_real; assumption]|right].
  unfold real, maxreal, ext_of, is_nan, is_inf, is_pinf, is_ninf, is_uinf in *.
  destruct (csp c); (destruct (Z.eqb_spec v (- 2 ^ (cN c - 1))); [|try lia]);
    try (left; split; [split; [discriminate|assumption]|reflexivity]).
  - right. split; [auto|]. destruct (Z.ltb_spec v 0); [reflexivity|lia].
  - right. destruct (Z.eqb_spec v (- 2 ^ (cN c - 1) + 1)).
    + split; [auto|]. destruct (Z.ltb_spec v 0); [reflexivity|lia].
    + destruct (Z.eqb_spec v (2 ^ (cN c - 1) - 1)); [|lia]. split; [auto|]. destruct (Z.ltb_spec v 0); [lia|reflexivity].
Qed.
Lemma to_ext v : pattern c v ->
  exists b, p_to_float c tr v = Ok b /\ 0 <= b < 2 ^ (eb + fb + 1) /\ same_ext (ieee_val eb fb b) (ext_of c v) /\ (v = 0 -> b = 0).
Proof using FO V FC ET FF.
  intros P. assert (PT : pt_holds c eb) by (unfold pt_holds, et_holds in *; lia). pose proof ff_fits as FRF.
  destruct (ext_of_cases v P) as [[R E]|[[N E]|[I E]]]; rewrite E.
  - destruct (to_float_covered c eb fb true v V FO PT FRF FC R) as (b & r & A & B & Iv & Q). exists b. split; [exact A|]. split; [exact B|].
    split; [rewrite Iv; exact Q|]. intros ->. destruct (to_float c eb fb true 0 V FO PT FRF R) as (A0 & _). rewrite A0 in A by reflexivity. injection A as <-. reflexivity.
  - destruct (to_float_special c eb fb true v V FO) as [H _]. destruct (H N) as (b & A & B & Iv). exists b. rewrite Iv. repeat split; try assumption; try lia.
    intros ->. destruct (kinds_disjoint c 0 V) as (_ & K & _). exfalso. apply K. split; [exact N|]. unfold real. pose proof (pow_ge4 c V). unfold maxreal. destruct (csp c); lia.
  - destruct (to_float_special c eb fb true v V FO) as [_ H]. destruct (H I) as (b & A & B & Iv). exists b. rewrite Iv. repeat split; try assumption; try lia.
    intros ->. destruct (kinds_disjoint c 0 V) as (_ & _ & K & _). exfalso. apply K. split; [exact I|]. unfold real. pose proof (pow_ge4 c V). unfold maxreal. destruct (csp c); lia.
Qed.

(** A posit as a dyadic number. *)
Lemma real_dy v : real c v -> v <> 0 -> exists n e m, (value c v == sgq n (dy m (e - gran c)))%Q /\
  2 ^ gran c <= m < 2 ^ (gran c + 1) /\ - emax c <= e <= emax c /\ scale (value c v) e.
Proof using V FC FF.
  intros R NZ. vcb V. pose proof ff_fits as FRF. unfold frac_fits in FRF. pose proof (gran_nonneg c BN Bes) as G.
  destruct (unpack_real c v (cF c - gran c) V ltac:(rewrite gran_val; lia) ltac:(lia) R NZ) as (e & f & U0 & Hf & He & Fm & Vv).
  set (n := v <? 0) in *. clearbody n.
  destruct (uabs_scale (cF c) e f ltac:(lia) Hf) as [S1 S2].
  assert (AP : (0 < uabs (cF c) e f)%Q) by (pose proof (pow2_pos e); lra).
  assert (VS : (value c v == sgq n (uabs (cF c) e f))%Q) by (rewrite Vv; unfold uval, sgq; destruct n; reflexivity).
  assert (AX : (Qabs (value c v) == uabs (cF c) e f)%Q) by (rewrite VS; apply sgq_abs; lra).
  assert (GF : gran c <= cF c) by (rewrite gran_val; lia).
  set (F := cF c) in *. set (g := gran c) in *. pow_pos 2 F. pow_pos 2 (F - g). pow_pos 2 g.
  assert (FD : f = f / 2 ^ (F - g) * 2 ^ (F - g)) by (pose proof (Z.div_mod f (2 ^ (F - g)) ltac:(lia)); lia).
  set (k := f / 2 ^ (F - g)) in *. clearbody k.
  assert (EF : 2 ^ F = 2 ^ g * 2 ^ (F - g)) by (rewrite <- Z.pow_add_r by lia; f_equal; lia).
  assert (KB : 0 <= k < 2 ^ g) by nia.
  exists n, e, (2 ^ g + k). split.
  - rewrite VS. assert (D2 : (uabs F e f == dy (2 ^ g + k) (e - g))%Q).
    { unfold uabs. rewrite FD, EF. replace (2 ^ g * 2 ^ (F - g) + k * 2 ^ (F - g)) with ((2 ^ g + k) * 2 ^ (F - g)) by ring.
      rewrite dy_pow by lia. replace (e - F + (F - g)) with (e - g) by lia. reflexivity. }
    unfold sgq. destruct n; rewrite D2; reflexivity.
  - split; [rewrite Z.pow_add_r by lia; change (2 ^ 1) with 2; lia|]. split; [exact He|]. unfold scale. rewrite AX. split; assumption.
Qed.
End posit.
End fmt.
