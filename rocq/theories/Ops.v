(** Posit level operations: what they compute on real operands. *)
From Coq Require Import ZArith QArith Lia Lqa Bool List.
From Verif Require Import Res CInt Bits Traits Unpacked Cfg Posit Spec QPow Core SpecLemmas Arith
  DecodeProof EncodeProof UOps UAdd.
Open Scope Z_scope.

Lemma gran_val c : gran c = cN c - 3 - ces c. Proof. reflexivity. Qed.

Lemma vopp c v : (value c (- v) == - value c v)%Q.
Proof.
  unfold value.
  destruct (Z.eqb_spec v 0) as [->|]; [reflexivity|].
  destruct (Z.eqb_spec (- v) 0); [lia|].
  destruct (Z.ltb_spec v 0), (Z.ltb_spec (- v) 0); try lia.
  - ring.
  - rewrite Z.opp_involutive. reflexivity.
Qed.
Lemma v0 c : (value c 0 == 0)%Q. Proof. reflexivity. Qed.

(** ** Truncation is faithful *)

Lemma faithful_comp c x y v : (x == y)%Q -> faithful c x v -> faithful c y v.
Proof.
  intros E [A [B [C D]]]. split; [assumption|]. split; [|split].
  - intros w Rw W. apply B; [assumption|]. rewrite E. assumption.
  - intros w Rw W. apply (C w Rw). lra.
  - intros w Rw W. apply (D w Rw). lra.
Qed.

Lemma faithful_opp c x v : faithful c x v -> faithful c (- x) (- v).
Proof.
  intros [A [B [C D]]].
  assert (R : forall w, real c w -> real c (- w)) by (intros w; unfold real; lia).
  split; [apply R; assumption|]. split; [|split].
  - intros w Rw W. rewrite <- (Z.opp_involutive w). f_equal. apply B; [apply R; assumption|].
    rewrite vopp, W. ring.
  - intros w Rw W. apply (D (- w) (R w Rw)). rewrite vopp in *. lra.
  - intros w Rw W. apply (C (- w) (R w Rw)). rewrite vopp in *. lra.
Qed.

Section Faithful.
Variable c : cfg.
Hypothesis (HN : 3 <= cN c) (Hes : 0 <= ces c <= cN c - 3).

Lemma down_faithful x v : (0 < x)%Q -> down_pos c x v -> faithful c x v.
Proof using HN Hes.
  intros X [R [P [D L]]]. split; [assumption|]. split; [|split].
  - intros w Rw W. apply (value_inj c HN Hes); try (apply real_bounds; assumption).
    assert (Pw : (0 < value c w)%Q) by lra.
    pose proof (D w Rw Pw ltac:(lra)) as D1.
    destruct L as [L|L]; [lra|]. specialize (L w Rw Pw). lra.
  - intros w Rw W. destruct L as [L|L]; [lra|]. specialize (L w Rw ltac:(lra)). lra.
  - intros w Rw W. pose proof (D w Rw ltac:(lra) ltac:(lra)). lra.
Qed.

Lemma faithful_zero : faithful c 0 0.
Proof using HN Hes.
  pose proof (maxreal_bounds c HN Hes).
  split; [unfold real; lia|]. split; [|split].
  - intros w Rw W. apply (value_inj c HN Hes); try (apply real_bounds; auto; unfold real; lia).
    rewrite W, (v0 c). reflexivity.
  - intros w _ W. rewrite (v0 c) in W. lra.
  - intros w _ W. rewrite (v0 c) in W. lra.
Qed.

Lemma rounds_faithful x v : rounds_tz c x v -> faithful c x v.
Proof using HN Hes.
  intros [[E ->]|[[P D]|[P D]]].
  - eapply faithful_comp; [symmetry; exact E|]. apply faithful_zero.
  - apply down_faithful; assumption.
  - assert (F : faithful c (- x) (- v)) by (apply down_faithful; [lra|assumption]).
    apply faithful_opp in F. rewrite Z.opp_involutive in F.
    eapply faithful_comp; [|exact F]. ring.
Qed.

(** Faithfulness from coordinates. *)
Lemma selects_faithful x y v : selects c y v ->
  (lval (gran c) (y - 1) < x)%Q -> (x < lval (gran c) (y + 1))%Q -> faithful c x v.
Proof using HN Hes.
  intros [S1 [S2 S3]] L U. pose proof (maxreal_bounds c HN Hes) as MB.
  pose proof (gran_nonneg c HN Hes) as G.
  pose proof (lval_pos (gran c) (y - 1) G) as LP.
  assert (Rv : real c v) by (unfold real; lia).
  assert (PW : forall w, real c w -> (0 < value c w)%Q ->
     1 <= w /\ w <= maxreal c /\ (value c w == lval (gran c) (pdec (cN c) w))%Q).
  { intros w Rw Pw. pose proof (real_bounds c HN Hes w Rw) as B.
    pose proof (value_pos_inv c HN Hes w B Pw) as W1. split; [assumption|].
    split; [unfold real in Rw; lia|]. apply value_pos_lval; try assumption. lia. }
  pose proof (value_pos c HN Hes v ltac:(lia)) as Pv.
  split; [assumption|]. split; [|split].
  - intros w Rw W. destruct (PW w Rw ltac:(lra)) as [W1 [W2 W3]].
    assert (A : y - 1 < pdec (cN c) w) by (apply (lval_lt_inv (gran c)); [assumption|lra]).
    assert (B : pdec (cN c) w < y + 1) by (apply (lval_lt_inv (gran c)); [assumption|lra]).
    assert (v <= w).
    { destruct S2 as [S2|S2]; [|lia]. apply (pdec_le_inv (cN c) HN); lia. }
    destruct S3 as [S3|S3]; [lia|].
    destruct (Z_le_gt_dec (v + 1) w) as [I|I]; [|lia].
    pose proof (pdec_le (cN c) HN (v + 1) w). lia.
  - intros w Rw [W1 W2]. destruct (PW w Rw ltac:(lra)) as [W3 [W4 W5]].
    assert (A : y - 1 < pdec (cN c) w) by (apply (lval_lt_inv (gran c)); [assumption|lra]).
    apply (value_lt_inv c HN Hes) in W2; try (apply real_bounds; assumption).
    destruct S2 as [S2|S2]; [|lia].
    pose proof (pdec_lt (cN c) HN w v). lia.
  - intros w Rw [W1 W2]. destruct (PW w Rw ltac:(lra)) as [W3 [W4 W5]].
    assert (B : pdec (cN c) w < y + 1) by (apply (lval_lt_inv (gran c)); [assumption|lra]).
    apply (value_lt_inv c HN Hes) in W1; try (apply real_bounds; assumption).
    destruct S3 as [S3|S3]; [lia|].
    pose proof (pdec_le (cN c) HN (v + 1) w). lia.
Qed.
End Faithful.

(** ** Packing a number known up to a cell *)

Lemma ycoord_div c e f : gran c <= cF c -> 0 <= gran c ->
  ycoord c e f = (e * 2 ^ cF c + f) / 2 ^ (cF c - gran c).
Proof.
  intros L G. unfold ycoord. pow_pos 2 (gran c). pow_pos 2 (cF c - gran c).
  replace (2 ^ cF c) with (2 ^ (cF c - gran c) * 2 ^ gran c) at 2
    by (rewrite <- Z.pow_add_r by lia; f_equal; lia).
  rewrite Z.div_mul_cancel_r by lia. reflexivity.
Qed.

Lemma lval_coarse g F y : 0 <= g <= F -> (lval F (y * 2 ^ (F - g)) == lval g y)%Q.
Proof.
  intros H. replace F with (g + (F - g)) at 1 by lia. apply lval_refine; lia.
Qed.

Lemma mult_gap y m j : 0 <= j <= m -> y mod 2 ^ j = 0 ->
  y / 2 ^ m * 2 ^ m <= y /\ y + 2 ^ j <= (y / 2 ^ m + 1) * 2 ^ m.
Proof.
  intros J M. pow_pos 2 j. pow_pos 2 m.
  pose proof (Z.div_mod y (2 ^ m) ltac:(lia)) as D. pose proof (Z.mod_pos_bound y (2 ^ m) ltac:(lia)) as B.
  split; [lia|].
  destruct (mod_dvd y j ltac:(lia) M) as [b ->].
  assert (E : 2 ^ m = 2 ^ (m - j) * 2 ^ j) by (rewrite <- Z.pow_add_r by lia; f_equal; lia).
  set (q := (b * 2 ^ j) / 2 ^ m) in *. rewrite E in *. pow_pos 2 (m - j).
  assert (b < (q + 1) * 2 ^ (m - j)).
  { apply (Z.mul_lt_mono_pos_r (2 ^ j)); [assumption|]. lia. }
  assert (b + 1 <= (q + 1) * 2 ^ (m - j)) by lia.
  pose proof (Z.mul_le_mono_nonneg_r _ _ (2 ^ j) ltac:(lia) H3). lia.
Qed.

Lemma cell_coord c e f j x : valid_cfg c -> gran c + j <= cF c -> cell (cF c) e f j x ->
  (lval (gran c) (ycoord c e f) <= x)%Q /\ (x < lval (gran c) (ycoord c e f + 1))%Q.
Proof.
  intros V L [Hf [Hj [M [C1 C2]]]]. vcb V. pose proof (gran_nonneg c BN Bes) as G.
  set (F := cF c) in *. set (m := F - gran c).
  rewrite ycoord_div by (try assumption; lia). fold F m.
  set (y := e * 2 ^ F + f).
  assert (ym : y mod 2 ^ j = 0).
  { unfold y. replace F with ((F - j) + j) by lia. rewrite Z.pow_add_r, Z.mul_assoc by lia.
    rewrite Z.add_comm, Z.mod_add by (pow_pos 2 j; lia). assumption. }
  destruct (mult_gap y m j ltac:(lia) ym) as [A B].
  rewrite <- !(lval_coarse (gran c) F) by lia. fold m.
  unfold uabs in C1. rewrite dy_lval in C1 by assumption. fold y in C1.
  split.
  - pose proof (lval_le F _ _ ltac:(lia) A). lra.
  - assert (FJ : f + 2 ^ j <= 2 ^ F).
    { destruct (mult_gap f F j ltac:(lia) M) as [_ B']. rewrite Z.div_small in B' by assumption. lia. }
    pow_pos 2 j.
    assert (E : (dy (2 ^ F + f + 2 ^ j) (e - F) == lval F (y + 2 ^ j))%Q).
    { unfold y. replace (e * 2 ^ F + f + 2 ^ j) with (e * 2 ^ F + (f + 2 ^ j)) by lia.
      rewrite lval_ef' by lia. rewrite Z.add_assoc. reflexivity. }
    rewrite E in C2. pose proof (lval_le F _ _ ltac:(lia) B). lra.
Qed.

Lemma cell_rounds c neg e f j x r : valid_cfg c -> exp_ok c -> gran c + j <= cF c ->
  cell (cF c) e f j x -> pack_posit c (U Regular neg e f) = Ok r -> rounds_tz c (sgq neg x) r.
Proof.
  intros V X L C P. destruct (cell_coord c e f j x V L C) as [A B].
  eapply pack_rounds; try eassumption. apply C.
Qed.

Lemma sg_faithful c neg x v : faithful c x v -> faithful c (sgq neg x) (sg neg v).
Proof. destruct neg; [apply faithful_opp|auto]. Qed.

Lemma cellb_faithful c neg e f J x r : valid_cfg c -> exp_ok c -> gran c + 3 <= cF c ->
  cellb (cF c) e f J x -> pack_posit c (U Regular neg e f) = Ok r -> faithful c (sgq neg x) r.
Proof.
  intros V X L [Hf [HJ [M [C1 C2]]]] P. vcb V. pose proof (gran_nonneg c BN Bes) as G.
  destruct (pack_selects c neg e f r V X Hf P) as [v [-> S]].
  apply sg_faithful. eapply selects_faithful; try eassumption.
  - rewrite ycoord_div by lia. rewrite <- (lval_coarse (gran c) (cF c)) by lia.
    set (m := cF c - gran c). set (y := e * 2 ^ cF c + f) in *. pow_pos 2 m.
    assert ((y / 2 ^ m - 1) * 2 ^ m <= y - 2 ^ J).
    { pose proof (Z.div_mod y (2 ^ m) ltac:(lia)). pose proof (Z.mod_pos_bound y (2 ^ m) ltac:(lia)).
      pose proof (pow2_mono J m ltac:(lia)). lia. }
    pose proof (lval_le (cF c) _ _ ltac:(lia) H0). lra.
  - rewrite ycoord_div by lia. rewrite <- (lval_coarse (gran c) (cF c)) by lia.
    set (m := cF c - gran c). set (y := e * 2 ^ cF c + f) in *. pow_pos 2 m.
    assert (y < (y / 2 ^ m + 1) * 2 ^ m).
    { pose proof (Z.div_mod y (2 ^ m) ltac:(lia)). pose proof (Z.mod_pos_bound y (2 ^ m) ltac:(lia)). lia. }
    pose proof (lval_lt (cF c) _ _ ltac:(lia) H0). lra.
Qed.

(** ** Unpacking real posits *)

Lemma unpack_real c v g : valid_cfg c -> 0 <= g -> gran c + g <= cF c -> real c v -> v <> 0 ->
  exists e f,
    unpack c v = Ok (U Regular (v <? 0) e f) /\ 0 <= f < 2 ^ cF c /\
    - emax c <= e <= emax c /\ f mod 2 ^ g = 0 /\
    (value c v == uval (cF c) (v <? 0) e f)%Q.
Proof.
  intros V Hg L R NZ. vcb V. pose proof (gran_nonneg c BN Bes) as G.
  destruct (unpack_spec c v V R NZ) as [e [f [U1 [Hf [He EQ]]]]].
  rewrite unpack_exact in EQ by lia.
  exists e, f. split; [assumption|]. split; [assumption|]. split; [assumption|]. split.
  - set (F := cF c) in *. set (m := F - gran c) in *.
    assert (E1 : f = (pdec (cN c) (Z.abs v) * 2 ^ (m - g) - e * 2 ^ (F - g)) * 2 ^ g).
    { rewrite Z.mul_sub_distr_r, <- !Z.mul_assoc, <- !Z.pow_add_r by lia.
      replace (m - g + g) with m by lia. replace (F - g + g) with F by lia. lia. }
    rewrite E1. apply Z.mod_mul. pow_pos 2 g. lia.
  - pose proof (real_bounds c BN Bes v R) as RB.
    assert (E : (value c (Z.abs v) == uabs (cF c) e f)%Q).
    { rewrite (value_pos_lval c BN Bes) by lia. unfold uabs. rewrite dy_lval by assumption. rewrite EQ.
      rewrite lval_coarse by lia. reflexivity. }
    unfold uval. destruct (Z.ltb_spec v 0).
    + rewrite <- E. replace (Z.abs v) with (- v) by lia. rewrite vopp. ring.
    + rewrite <- E. replace (Z.abs v) with v by lia. reflexivity.
Qed.

Lemma unpack_zero c : valid_cfg c -> unpack c 0 = Ok (u_special Zero false).
Proof.
  intros V. vcb V. pose proof (maxreal_bounds c BN Bes).
  destruct (real_not_special c 0 V ltac:(unfold real; lia)) as [E1 E2].
  unfold unpack, unpack_low. rewrite E1, E2. reflexivity.
Qed.
Lemma unpack_nan c v : valid_cfg c -> is_nan c v -> unpack c v = Ok (u_special NaN false).
Proof.
  intros V I. assert (P : pattern c v).
  { vcb V. destruct I as [_ ->]. unfold pattern. pow_pos 2 (cN c - 1). lia. }
  destruct (kind_of c v V P) as [R E1 E2|_ E1 E2|I' E1 E2].
  - apply isNaN_spec in I; [congruence|assumption].
  - unfold unpack, unpack_low. rewrite E2, E1. reflexivity.
  - apply isNaN_spec in I; [congruence|assumption].
Qed.
Lemma unpack_inf c v : valid_cfg c -> is_inf c v -> unpack c v = Ok (u_special Infinity (v <? 0)).
Proof.
  intros V I. apply isinf_spec in I; [|assumption].
  unfold unpack, unpack_low. rewrite I. reflexivity.
Qed.

Lemma pack_zero c n : pack_posit c (u_special Zero n) = Ok 0. Proof. reflexivity. Qed.

Lemma uval_abs F n e f : (uval F n e f == sgq n (uabs F e f))%Q.
Proof. destruct n; reflexivity. Qed.

Lemma trunc2 f : f mod 4 = 0 -> 2 * (f / 2) = f.
Proof.
  intros M. pose proof (Z.div_mod f 4 ltac:(lia)) as D. rewrite M in D.
  assert (2 * (f / 4) = f / 2) by (apply Z.div_unique_exact; lia). lia.
Qed.

Lemma sgq_mul a b x y : (sgq a x * sgq b y == sgq (xorb a b) (x * y))%Q.
Proof. destruct a, b; cbn [xorb sgq]; ring. Qed.

Lemma sgq_comp n x y : (x == y)%Q -> (sgq n x == sgq n y)%Q.
Proof. intros E. destruct n; cbn [sgq]; rewrite E; reflexivity. Qed.

Lemma value_nz c v : valid_cfg c -> real c v -> v <> 0 -> ~ (value c v == 0)%Q.
Proof.
  intros V R NZ E. vcb V. apply NZ. apply (value_inj c BN Bes).
  - apply real_bounds; assumption.
  - pow_pos 2 (cN c - 1). lia.
  - rewrite E, (v0 c). reflexivity.
Qed.

Lemma rounds_zero c x : (x == 0)%Q -> rounds_tz c x 0.
Proof. left. auto. Qed.

(** ** Multiplication *)
Section Mul.
Variables (c : cfg) (a b : Z).
Hypothesis (V : valid_cfg c) (X : exp_ok c) (MF : mul_fits c).
Hypothesis (Ra : real c a) (Rb : real c b).

Lemma p_mul_core :
  (p_mul c a b = Ok 0 /\ (value c a * value c b == 0)%Q) \/
  exists n e f j x, p_mul c a b = pack_posit c (U Regular n e f) /\ 1 <= j <= 2 /\
    cell (cF c) e f j x /\ (value c a * value c b == sgq n x)%Q.
Proof using V MF Ra Rb.
  vcb V. unfold p_mul.
  destruct (Z.eq_dec a 0) as [->|Na].
  { left. rewrite unpack_zero by assumption. cbn [bind]. split; [|rewrite v0; ring].
    destruct (Z.eq_dec b 0) as [->|Nb].
    - rewrite unpack_zero by assumption. reflexivity.
    - destruct (unpack_spec c b V Rb Nb) as [e [f [-> _]]]. reflexivity. }
  destruct (Z.eq_dec b 0) as [->|Nb].
  { left. rewrite (unpack_zero c) by assumption. split; [|rewrite v0; ring].
    destruct (unpack_spec c a V Ra Na) as [e [f [-> _]]]. reflexivity. }
  right. unfold mul_fits in MF. rewrite <- gran_val in MF.
  destruct (unpack_real c a 2 V ltac:(lia) MF Ra Na) as [ea [fa [-> [Hfa [Hea [Mfa Va]]]]]].
  destruct (unpack_real c b 2 V ltac:(lia) MF Rb Nb) as [eb [fb [-> [Hfb [Heb [Mfb Vb]]]]]].
  cbn [bind]. destruct (emax_bound c V) as [EB1 EB2].
  destruct (u_mul_spec (cF c) (c_E c) (a <? 0) (b <? 0) ea eb fa fb (vc_F _ V) (c_E_width c V) Hfa Hfb
              ltac:(lia) ltac:(lia)) as [e [f [j [-> [J [_ C]]]]]].
  cbn [bind]. rewrite !trunc2 in C by assumption.
  exists (xorb (a <? 0) (b <? 0)), e, f, j. eexists. split; [reflexivity|]. split; [assumption|].
  split; [exact C|]. rewrite Va, Vb, !uval_abs. apply sgq_mul.
Qed.

Lemma p_mul_rounds r : p_mul c a b = Ok r -> rounds_tz c (value c a * value c b) r.
Proof using All.
  intros P. vcb V. destruct p_mul_core as [[E Z]|[n [e [f [j [x [E [J [C Vx]]]]]]]]]; rewrite E in P.
  - injection P as <-. apply rounds_zero; assumption.
  - eapply rounds_tz_comp; try assumption; [symmetry; exact Vx|].
    eapply (cell_rounds c n e f j); try eassumption. unfold mul_fits in MF. rewrite <- gran_val in MF. lia.
Qed.

Lemma p_mul_defined : roomy c -> exists r, p_mul c a b = Ok r.
Proof using All.
  intros Rm. destruct p_mul_core as [[E Z]|[n [e [f [j [x [E [J [C Vx]]]]]]]]]; rewrite E; [eauto|].
  apply pack_defined; try assumption. apply C.
Qed.
End Mul.

(** ** Division *)
Section Div.
Variables (c : cfg) (a b : Z).
Hypothesis (V : valid_cfg c) (X : exp_ok c) (MF : mul_fits c).
Hypothesis (Ra : real c a) (Rb : real c b) (Nb : b <> 0).

Lemma sgq_div p q x y : ~ (y == 0)%Q -> (sgq p x / sgq q y == sgq (xorb p q) (x / y))%Q.
Proof using. intros H. destruct p, q; cbn [xorb sgq]; field; assumption. Qed.

Lemma uabs_pos F e f : 0 <= F -> 0 <= f -> (0 < uabs F e f)%Q.
Proof using. intros HF H. unfold uabs. apply dy_pos. pow_pos 2 F. lia. Qed.

Lemma p_div_core :
  (p_div c a b = Ok 0 /\ (value c a / value c b == 0)%Q) \/
  exists n e f x, p_div c a b = pack_posit c (U Regular n e f) /\
    cell (cF c) e f 0 x /\ (value c a / value c b == sgq n x)%Q.
Proof using V MF Ra Rb Nb.
  vcb V. unfold p_div.
  destruct (Z.eq_dec a 0) as [->|Na].
  { left. rewrite unpack_zero by assumption. cbn [bind]. pose proof (value_nz c b V Rb Nb).
    split; [|rewrite v0; field; assumption].
    destruct (unpack_spec c b V Rb Nb) as [e [f [-> _]]]. reflexivity. }
  right. unfold mul_fits in MF. rewrite <- gran_val in MF.
  destruct (unpack_real c a 2 V ltac:(lia) MF Ra Na) as [ea [fa [-> [Hfa [Hea [Mfa Va]]]]]].
  destruct (unpack_real c b 2 V ltac:(lia) MF Rb Nb) as [eb [fb [-> [Hfb [Heb [Mfb Vb]]]]]].
  cbn [bind]. destruct (emax_bound c V) as [EB1 EB2].
  destruct (u_div_spec (cF c) (c_E c) (a <? 0) (b <? 0) ea eb fa fb (vc_F _ V) (c_E_width c V) Hfa Hfb Mfb
              ltac:(lia) ltac:(lia)) as [e [f [-> [_ C]]]].
  cbn [bind]. rewrite !trunc2 in C by assumption.
  exists (xorb (a <? 0) (b <? 0)), e, f. eexists. split; [reflexivity|].
  split; [exact C|]. rewrite Va, Vb, !uval_abs. apply sgq_div.
  pose proof (uabs_pos (cF c) eb fb ltac:(lia) ltac:(lia)). lra.
Qed.

Lemma p_div_rounds r : p_div c a b = Ok r -> rounds_tz c (value c a / value c b) r.
Proof using All.
  intros P. vcb V. destruct p_div_core as [[E Z]|[n [e [f [x [E [C Vx]]]]]]]; rewrite E in P.
  - injection P as <-. apply rounds_zero; assumption.
  - eapply rounds_tz_comp; try assumption; [symmetry; exact Vx|].
    eapply (cell_rounds c n e f 0); try eassumption. unfold mul_fits in MF. rewrite <- gran_val in MF. lia.
Qed.

Lemma p_div_defined : roomy c -> exists r, p_div c a b = Ok r.
Proof using All.
  intros Rm. destruct p_div_core as [[E Z]|[n [e [f [x [E [C Vx]]]]]]]; rewrite E; [eauto|].
  apply pack_defined; try assumption. apply C.
Qed.
End Div.
