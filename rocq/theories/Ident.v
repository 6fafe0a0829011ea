(** Identities between operations, and where a midpoint lies. *)
From Coq Require Import ZArith QArith Qabs Lia Lqa Bool.
From Verif Require Import Res CInt Traits Cfg Spec SpecAcc Unpacked Posit Posit2 QPow Core SpecLemmas DecodeProof Ops OpsAdd OpsUnary OpsUnary2
  Room Laws Configs Final1 Final2 Final3 Final4 Acc1 Acc2 Acc3 Err1 GaussProof.
Open Scope Z_scope.

Lemma fa_le c x r w : faithful c x r -> real c w -> (x <= value c w)%Q -> (value c r <= value c w)%Q.
Proof.
  intros (R & E & A & B) W L. destruct (Qlt_le_dec (value c w) (value c r)) as [K|K]; [|exact K].
  destruct (Qlt_le_dec x (value c w)) as [M|M]; [exfalso; apply (A w W); split; assumption|].
  assert (Q : (value c w == x)%Q) by lra. rewrite (E w W Q) in K. lra.
Qed.
Lemma fa_ge c x r w : faithful c x r -> real c w -> (value c w <= x)%Q -> (value c w <= value c r)%Q.
Proof.
  intros (R & E & A & B) W L. destruct (Qlt_le_dec (value c r) (value c w)) as [K|K]; [|exact K].
  destruct (Qlt_le_dec (value c w) x) as [M|M]; [exfalso; apply (B w W); split; assumption|].
  assert (Q : (value c w == x)%Q) by lra. rewrite (E w W Q) in K. lra.
Qed.
Lemma fa_abs c x r w : valid_cfg c -> faithful c x r -> real c w -> (Qabs x <= value c w)%Q -> (Qabs (value c r) <= value c w)%Q.
Proof.
  intros V F W L. vcb V. apply Qabs_Qle_condition in L. apply Qabs_Qle_condition. split.
  - rewrite <- (value_opp c BN Bes w). apply (fa_ge c x); [exact F|apply real_opp; assumption|]. rewrite (value_opp c BN Bes w). lra.
  - apply (fa_le c x); [exact F|exact W|lra].
Qed.
Lemma one_real c : valid_cfg c -> real c 1.
Proof. intros V. vcb V. pose proof (maxreal_bounds c BN Bes). unfold real. lia. Qed.
(** A truncated number of at least the smallest magnitude never grows. *)
Lemma tz_down c x r : valid_cfg c -> rounds_tz c x r -> (value c 1 <= Qabs x)%Q -> (Qabs (value c r) <= Qabs x)%Q.
Proof.
  intros V T L. pose proof V as V'. vcb V'. pose proof (tz_abs c x r V T) as A. pose proof (one_real c V) as R1.
  assert (P1 : (0 < value c 1)%Q) by (apply (proj2 (value_sign c 1 V R1)); lia).
  rewrite <- (value_abs c r V (rounds_tz_real c BN Bes _ _ T)).
  destruct A as [[A E]|[[A (D1 & D2 & D3 & D4)]|[A _]]]; [lra| |pose proof (Qabs_nonneg x); lra].
  destruct D4 as [D4|D4]; [exact D4|]. specialize (D4 1 R1 P1). lra.
Qed.
(** Truncation never adds more than the least magnitude, and then gives it. *)
Lemma tz_cases c x r : valid_cfg c -> (0 <= x)%Q -> rounds_tz c x r -> (value c r <= x)%Q \/ (r = 1 /\ (0 < x)%Q /\ (x < value c 1)%Q).
Proof.
  intros V L T. pose proof V as V'. vcb V'. pose proof (one_real c V) as R1.
  assert (P1 : (0 < value c 1)%Q) by (apply (proj2 (value_sign c 1 V R1)); lia).
  destruct (Qlt_le_dec x (value c 1)) as [K|K].
  - destruct T as [[A E]|[[A (D1 & D2 & D3 & D4)]|[A _]]]; [left; subst; rewrite (value_0 c BN Bes); lra| |lra].
    destruct D4 as [D4|D4]; [left; exact D4|]. specialize (D4 1 R1 P1). right. split; [|split; assumption].
    assert (0 < r) by (apply (proj2 (value_sign c r V D1)); exact D2).
    destruct (Z.eq_dec r 1) as [|N]; [assumption|]. exfalso.
    pose proof (real_bounds c BN Bes r D1). assert ((value c 1 < value c r)%Q) by (apply (value_lt c BN Bes); lia). lra.
  - left. pose proof (tz_down c x r V T) as D. rewrite (Qabs_pos x L) in D. specialize (D K).
    pose proof (Qle_Qabs (value c r)). lra.
Qed.

Section Id.
Context (c : cfg) (V : valid_cfg c) (X : exp_ok c).

Lemma nn v : real c v -> real c (- v).
Proof using V. intros R. vcb V. apply real_opp; assumption. Qed.
Lemma sub_opp a b : real c b -> p_sub c a b = p_add c a (- b).
Proof using V. intros R. unfold p_sub. rewrite (p_neg_real c b V R). reflexivity. Qed.
Lemma comm a b : real c a -> real c b -> p_add c a b = p_add c b a.
Proof using V. intros A B. destruct (real_nn c a V A), (real_nn c b V B). apply commute; assumption. Qed.
Lemma rneg o : (forall r, o = Ok r -> real c r) -> bind o (p_neg c) = rmap Z.opp o.
Proof using V. intros H. destruct o as [r|u]; [|reflexivity]. cbn [bind rmap]. apply p_neg_real; [exact V|auto]. Qed.
Lemma rabs o : (forall r, o = Ok r -> real c r) -> bind o (p_abs c) = rmap Z.abs o.
Proof using V. intros H. destruct o as [r|u]; [|reflexivity]. cbn [bind rmap]. apply p_abs_real; [exact V|auto]. Qed.
Lemma rmap_rmap {A} (f g h : A -> A) (o : res A) : (forall x, f (g x) = h x) -> rmap f (rmap g o) = rmap h o.
Proof using. intros H. destruct o; cbn [rmap]; [rewrite H|]; reflexivity. Qed.

(** b - a = -(a - b). *)
Lemma sub_anti a b : add_fits c -> real c a -> real c b -> p_sub c b a = bind (p_sub c a b) (p_neg c).
Proof using V X.
  intros AF A B. rewrite (sub_opp a b B), (sub_opp b a A), rneg.
  - rewrite <- p_add_opp by (try assumption; apply nn; assumption). rewrite Z.opp_involutive. apply comm; [assumption|apply nn; assumption].
  - intros r O. apply (add_real c a (- b) r V X AF A (nn b B) O).
Qed.
(** |a b| = |a| |b|, |a / b| = |a| / |b|. *)
Lemma mul_abs a b na nb : mul_fits c -> real c a -> real c b -> p_abs c a = Ok na -> p_abs c b = Ok nb ->
  p_mul c na nb = bind (p_mul c a b) (p_abs c).
Proof using V X.
  intros MF A B EA EB. rewrite (p_abs_real c a V A) in EA. rewrite (p_abs_real c b V B) in EB. injection EA as <-. injection EB as <-. rewrite rabs by (intros r O; apply (mul_real c a b r V X MF A B O)).
  pose proof (p_mul_rounds c a b V X MF A B) as T.
  assert (S : rmap Z.abs (p_mul c a b) = rmap Z.abs (p_mul c (Z.abs a) (Z.abs b))).
  { destruct (Z.abs_spec a) as [[_ ->]|[_ ->]], (Z.abs_spec b) as [[_ ->]|[_ ->]]; [reflexivity| | |].
    - rewrite p_mul_opp_r by assumption. symmetry. apply rmap_rmap. intros; lia.
    - rewrite p_mul_opp_l by assumption. symmetry. apply rmap_rmap. intros; lia.
    - rewrite p_mul_opp_l by (try assumption; apply nn; assumption). rewrite p_mul_opp_r by assumption. rewrite (rmap_rmap Z.opp Z.opp (fun x => x)) by (intros; lia). destruct (p_mul c a b); reflexivity. }
  rewrite S. pose proof (real_abs c a V A) as A'. pose proof (real_abs c b V B) as B'.
  destruct (p_mul c (Z.abs a) (Z.abs b)) as [r|u] eqn:O; [|reflexivity]. cbn [rmap]. f_equal.
  pose proof (rounds_sign_ok c _ r V (p_mul_rounds c _ _ V X MF A' B' r O)) as (S0 & S1 & S2).
  assert (P : (0 <= value c (Z.abs a) * value c (Z.abs b))%Q) by (rewrite (value_abs c a V A), (value_abs c b V B); apply Qmult_le_0_compat; apply Qabs_nonneg).
  destruct (Z_lt_le_dec r 0) as [L|L]; [apply S2 in L; lra|lia].
Qed.
Lemma div_abs a b na nb : mul_fits c -> real c a -> real c b -> b <> 0 -> p_abs c a = Ok na -> p_abs c b = Ok nb ->
  p_div c na nb = bind (p_div c a b) (p_abs c).
Proof using V X.
  intros MF A B NB EA EB. rewrite (p_abs_real c a V A) in EA. rewrite (p_abs_real c b V B) in EB. injection EA as <-. injection EB as <-. rewrite rabs by (intros r O; apply (div_real c a b r V X MF A B NB O)).
  assert (S : rmap Z.abs (p_div c a b) = rmap Z.abs (p_div c (Z.abs a) (Z.abs b))).
  { destruct (Z.abs_spec a) as [[_ ->]|[_ ->]], (Z.abs_spec b) as [[_ ->]|[_ ->]]; [reflexivity| | |].
    - rewrite p_div_opp_r by assumption. symmetry. apply rmap_rmap. intros; lia.
    - rewrite p_div_opp_l by assumption. symmetry. apply rmap_rmap. intros; lia.
    - rewrite p_div_opp_l by (try assumption; try lia; apply nn; assumption). rewrite p_div_opp_r by assumption. rewrite (rmap_rmap Z.opp Z.opp (fun x => x)) by (intros; lia). destruct (p_div c a b); reflexivity. }
  rewrite S. pose proof (real_abs c a V A) as A'. pose proof (real_abs c b V B) as B'. assert (NB' : Z.abs b <> 0) by lia.
  destruct (p_div c (Z.abs a) (Z.abs b)) as [r|u] eqn:O; [|reflexivity]. cbn [rmap]. f_equal.
  pose proof (rounds_sign_ok c _ r V (p_div_rounds c _ _ V X MF A' B' NB' r O)) as (S0 & S1 & S2).
  assert (PB : (0 < value c (Z.abs b))%Q) by (apply (proj2 (value_sign c _ V B')); lia).
  assert (P : (0 <= value c (Z.abs a) / value c (Z.abs b))%Q).
  { apply Qle_shift_div_l; [exact PB|]. rewrite Qmult_0_l, (value_abs c a V A). apply Qabs_nonneg. }
  destruct (Z_lt_le_dec r 0) as [L|L]; [apply S2 in L; lra|lia].
Qed.

(** Doubling. *)
Lemma same_tz a b r : mul_fits c -> real c a -> real c b -> (0 <= a /\ 0 <= b \/ a <= 0 /\ b <= 0) -> p_add c a b = Ok r -> rounds_tz c (value c a + value c b) r.
Proof using V X. intros. apply p_add_same_rounds; assumption. Qed.
Lemma double_agree x r s t : mul_fits c -> real c x -> (csp c = WithNanInf -> cN c <> 3) ->
  ~ (csp c = WithNanInf /\ ces c = 0 /\ Z.abs x = maxreal c) ->
  (p_add c x x = Ok r -> p_mul c x (p_two c) = Ok s -> r = s) /\
  (p_twice c x = Ok t -> p_mul c x (p_two c) = Ok s -> t = s) /\
  (p_twice c x = Ok t -> p_add c x x = Ok r -> t = r).
Proof using V X.
  intros MF R N3 NE. pose proof V as V'. vcb V'. pose proof (two_real c V N3) as R2.
  assert (A1 : p_add c x x = Ok r -> rounds_tz c (value c x * (2 # 1)) r).
  { intros O. apply (rounds_tz_comp c BN Bes (value c x + value c x)); [ring|]. apply same_tz; try assumption. lia. }
  assert (A2 : p_mul c x (p_two c) = Ok s -> rounds_tz c (value c x * (2 # 1)) s).
  { intros O. apply (rounds_tz_comp c BN Bes (value c x * value c (p_two c))); [rewrite (two_value c V); reflexivity|]. apply (p_mul_rounds c x (p_two c) V X MF R R2); exact O. }
  assert (A3 : p_twice c x = Ok t -> rounds_tz c (value c x * (2 # 1)) t) by (intros O; apply (twice_partial c x V R NE); exact O).
  split; [|split]; intros O1 O2; eapply (rounds_tz_unique c BN Bes); eauto.
Qed.
Lemma half_agree x r s : mul_fits c -> real c x -> (csp c = WithNanInf -> cN c <> 3) -> x <> 1 -> x <> -1 ->
  p_half c x = Ok r -> p_div c x (p_two c) = Ok s -> r = s.
Proof using V X.
  intros MF R N3 N1 N2 H D. pose proof V as V'. vcb V'. pose proof (two_real c V N3) as R2. pose proof (two_value c V) as V2.
  assert (NZ : p_two c <> 0) by (intros E; rewrite E, (value_0 c BN Bes) in V2; lra).
  apply (rounds_tz_unique c BN Bes (value c x * (1 # 2))); [apply (half_partial c x V R N1 N2); exact H|].
  apply (rounds_tz_comp c BN Bes (value c x / value c (p_two c))); [rewrite V2; reflexivity|]. apply (p_div_rounds c x (p_two c) V X MF R R2 NZ); exact D.
Qed.

(** |a + b| <= |a| + |b|. *)
Lemma triangle a b r s : add_fits c -> real c a -> real c b -> p_add c a b = Ok r -> p_add c (Z.abs a) (Z.abs b) = Ok s -> (Qabs (value c r) <= value c s)%Q.
Proof using V X.
  intros AF A B O1 O2. pose proof V as V'. vcb V'. pose proof (add_fits_mul c AF) as MF. pose proof (real_abs c a V A) as A'. pose proof (real_abs c b V B) as B'.
  pose proof (p_add_faithful c a b r V X AF A B O1) as [F1 S1].
  assert (T2 : rounds_tz c (value c (Z.abs a) + value c (Z.abs b)) s) by (apply same_tz; try assumption; lia).
  pose proof (rounds_tz_real c BN Bes _ _ T2) as RS.
  pose proof (value_abs c a V A) as VA. pose proof (value_abs c b V B) as VB. pose proof (Qabs_nonneg (value c a)) as PA. pose proof (Qabs_nonneg (value c b)) as PB.
  assert (D : (0 <= a /\ 0 <= b \/ a <= 0 /\ b <= 0) \/ (0 <= a /\ b <= 0) \/ (a <= 0 /\ 0 <= b)) by lia. destruct D as [D|D].
  - pose proof (same_tz a b r MF A B D O1) as T1. rewrite <- (value_abs c r V (rounds_tz_real c BN Bes _ _ T1)). apply real_value_le; [exact V|apply real_abs; [exact V|apply (rounds_tz_real c BN Bes _ _ T1)]|exact RS|].
    apply (rounds_tz_mono c _ _ _ _ V) with (2 := tz_abs c _ _ V T1) (3 := T2). rewrite VA, VB. apply Qabs_triangle.
  - assert (M : exists w, real c w /\ (Qabs (value c a + value c b) <= value c w)%Q /\ (value c w <= value c (Z.abs a) + value c (Z.abs b))%Q).
    { destruct (value_sign c a V A) as [Na Pa], (value_sign c b V B) as [Nb Pb].
      assert (E : ((0 <= value c a)%Q /\ (value c b <= 0)%Q) \/ ((value c a <= 0)%Q /\ (0 <= value c b)%Q)).
      { assert (K : forall y, (y < 0 <-> (value c y < 0)%Q) -> 0 <= y -> (0 <= value c y)%Q) by (intros y H L; destruct (Qlt_le_dec (value c y) 0) as [G|G]; [apply H in G; lia|exact G]).
        assert (K' : forall y, (0 < y <-> (0 < value c y)%Q) -> y <= 0 -> (value c y <= 0)%Q) by (intros y H L; destruct (Qlt_le_dec 0 (value c y)) as [G|G]; [apply H in G; lia|exact G]).
        destruct D as [[D1 D2]|[D1 D2]]; [left|right]; auto. }
      destruct (Qlt_le_dec (Qabs (value c a)) (Qabs (value c b))) as [L|L].
      - exists (Z.abs b). split; [exact B'|]. rewrite VA, VB. split; [|lra]. apply Qabs_Qle_condition.
        destruct E as [[E1 E2]|[E1 E2]]; [rewrite (Qabs_pos _ E1), (Qabs_neg _ E2) in *|rewrite (Qabs_neg _ E1), (Qabs_pos _ E2) in *]; lra.
      - exists (Z.abs a). split; [exact A'|]. rewrite VA, VB. split; [|lra]. apply Qabs_Qle_condition.
        destruct E as [[E1 E2]|[E1 E2]]; [rewrite (Qabs_pos _ E1), (Qabs_neg _ E2) in *|rewrite (Qabs_neg _ E1), (Qabs_pos _ E2) in *]; lra. }
    destruct M as (w & W & L1 & L2). apply Qle_trans with (value c w); [apply (fa_abs c (value c a + value c b)); assumption|].
    apply real_value_le; try assumption. apply (rounds_tz_mono c _ _ _ _ V L2 (rounds_tz_exact c BN Bes w W) T2).
Qed.
(** ||a| - |b|| <= |a - b|. *)
Lemma rev_triangle a b r s : add_fits c -> real c a -> real c b -> p_sub c (Z.abs a) (Z.abs b) = Ok r -> p_sub c a b = Ok s -> (Qabs (value c r) <= Qabs (value c s))%Q.
Proof using V X.
  intros AF A B O1 O2. pose proof V as V'. vcb V'. pose proof (real_abs c a V A) as A'. pose proof (real_abs c b V B) as B'.
  assert (SR : real c s) by (rewrite (sub_opp a b B) in O2; apply (add_real c a (- b) s V X AF A (nn b B) O2)).
  rewrite (sub_opp _ _ B') in O1. rewrite (sub_opp a b B) in O2.
  assert (OPP : forall u, (Qabs (value c (- u)) == Qabs (value c u))%Q) by (intros u; rewrite (value_opp c BN Bes u); apply Qabs_opp).
  destruct (Z_lt_le_dec a 0) as [La|La], (Z_lt_le_dec b 0) as [Lb|Lb].
  - rewrite (Z.abs_neq a), (Z.abs_neq b) in O1 by lia. rewrite p_add_opp, O2 in O1 by (try assumption; apply nn; assumption). cbn [rmap] in O1. injection O1 as <-. rewrite OPP. lra.
  - assert (T : (Qabs (value c r) <= value c (- s))%Q).
    { apply (triangle (Z.abs a) (- Z.abs b) r (- s) AF A' (nn _ B') O1). rewrite (Z.abs_neq a), (Z.abs_eq b) by lia. rewrite Z.abs_eq, (Z.abs_neq (- b)) by lia.
      rewrite p_add_opp, O2 by (try assumption; apply nn; assumption). reflexivity. }
    rewrite <- (OPP s). pose proof (Qle_Qabs (value c (- s))). lra.
  - assert (T : (Qabs (value c r) <= value c s)%Q).
    { apply (triangle (Z.abs a) (- Z.abs b) r s AF A' (nn _ B') O1). replace (Z.abs (Z.abs a)) with a by lia. replace (Z.abs (- Z.abs b)) with (- b) by lia. exact O2. }
    pose proof (Qle_Qabs (value c s)). lra.
  - rewrite (Z.abs_eq a), (Z.abs_eq b), O2 in O1 by lia. injection O1 as <-. lra.
Qed.

(** Dividing and multiplying back. *)
Lemma vnz b : real c b -> b <> 0 -> (0 < Qabs (value c b))%Q.
Proof using V.
  intros B N. rewrite <- (value_abs c b V B). apply (proj2 (value_sign c _ V (real_abs c b V B))). lia.
Qed.
Lemma div_mul a b q r : mul_fits c -> real c a -> real c b -> b <> 0 -> (value c 1 <= Qabs (value c a / value c b))%Q ->
  p_div c a b = Ok q -> p_mul c q b = Ok r -> (Qabs (value c r) <= Qabs (value c a))%Q.
Proof using V X.
  intros MF A B N L O1 O2. pose proof V as V'. vcb V'. pose proof (vnz b B N) as PB.
  pose proof (p_div_rounds c a b V X MF A B N q O1) as T1. pose proof (rounds_tz_real c BN Bes _ _ T1) as Q.
  pose proof (p_mul_rounds c q b V X MF Q B r O2) as T2. pose proof (tz_down c _ _ V T1 L) as D.
  apply (tz_abs_mono c _ _ _ _ V) with (2 := T2) (3 := rounds_tz_exact c BN Bes a A). rewrite Qabs_Qmult.
  assert (NB : ~ (value c b == 0)%Q) by (intros E; rewrite E in PB; discriminate).
  assert (E : (Qabs (value c a) == Qabs (value c a / value c b) * Qabs (value c b))%Q) by (rewrite <- Qabs_Qmult; apply Qabs_wd; field; exact NB).
  rewrite E. apply Qmult_le_compat_r; lra.
Qed.
Lemma mul_div a b q r : mul_fits c -> real c a -> real c b -> b <> 0 -> (value c 1 <= Qabs (value c a * value c b))%Q ->
  p_mul c a b = Ok q -> p_div c q b = Ok r -> (Qabs (value c r) <= Qabs (value c a))%Q.
Proof using V X.
  intros MF A B N L O1 O2. pose proof V as V'. vcb V'. pose proof (vnz b B N) as PB.
  pose proof (p_mul_rounds c a b V X MF A B q O1) as T1. pose proof (rounds_tz_real c BN Bes _ _ T1) as Q.
  pose proof (p_div_rounds c q b V X MF Q B N r O2) as T2. pose proof (tz_down c _ _ V T1 L) as D.
  apply (tz_abs_mono c _ _ _ _ V) with (2 := T2) (3 := rounds_tz_exact c BN Bes a A).
  assert (NB : ~ (value c b == 0)%Q) by (intros E; rewrite E in PB; discriminate).
  unfold Qdiv. rewrite Qabs_Qmult, Qabs_Qinv. apply Qle_shift_div_r; [exact PB|]. rewrite <- Qabs_Qmult. exact D.
Qed.
Lemma least_inv x : real c x -> x <> 0 -> (value c 1 <= Qabs (/ value c x))%Q.
Proof using V.
  intros R N. pose proof V as V'. vcb V'. rewrite Qabs_Qinv. apply Qle_shift_inv_l; [apply vnz; assumption|].
  rewrite <- (value_abs c x V R). assert (W : (value c (Z.abs x) <= value c (maxreal c))%Q).
  { apply real_value_le; [exact V|apply real_abs; assumption| |]; unfold real in *; pose proof (maxreal_bounds c BN Bes); lia. }
  apply Qle_trans with (value c 1 * value c (maxreal c))%Q.
  - rewrite (Qmult_comm (value c 1)), (Qmult_comm (value c 1)). apply Qmult_le_compat_r; [exact W|]. pose proof (one_real c V) as R1. assert (P1 : (0 < value c 1)%Q) by (apply (proj2 (value_sign c 1 V R1)); lia). lra.
  - rewrite (one_value c V), (maxreal_value c V), <- pow2_plus. change 1%Q with (pow2 0). apply pow2_le. pow_pos 2 (ces c). unfold maxk. destruct (csp c); cbn [spec_eqb]; nia.
Qed.
Lemma inv_not_least x r : csp c = WithNanInf -> real c x -> x <> 0 -> rounds_tz c (/ value c x) r -> r <> 1 /\ r <> -1.
Proof using V.
  intros SP R N T. pose proof V as V'. vcb V'. pose proof (tz_abs c _ _ V T) as TA.
  assert (M2 : 3 <= cN c) by lia. pow_pos 2 (cN c - 3).
  assert (B2 : 1 <= 2 < 2 ^ (cN c - 1)) by (replace (cN c - 1) with (cN c - 3 + 1 + 1) by lia; rewrite !pow2_S by lia; lia).
  assert (E2 : pdec (cN c) 2 = - (cN c - 3) * 2 ^ (cN c - 3)).
  { assert (BE : base (cN c) (- (cN c - 3)) = 2).
    { unfold base. destruct (Z.leb_spec 0 (- (cN c - 3))) as [G|G].
      - assert (E : cN c = 3) by lia. rewrite E. reflexivity.
      - replace (cN c - 2 + - (cN c - 3)) with 1 by lia. reflexivity. }
    assert (E : reg (cN c) 2 = - (cN c - 3)).
    { apply reg_unique; [lia|unfold inreg; lia|]. rewrite BE. pose proof (cnt_pos (cN c) ltac:(lia) (- (cN c - 3)) ltac:(unfold inreg; lia)). lia. }
    unfold pdec. rewrite E, BE. lia. }
  destruct (pows c V) as (P3 & Pe & Pg & G0).
  assert (V2 : (value c 2 == pow2 (- (cN c - 3) * 2 ^ ces c))%Q).
  { rewrite (value_pos_lval c BN Bes _ B2), E2, P3.
    replace (- (cN c - 3) * (2 ^ ces c * 2 ^ gran c)) with (- (cN c - 3) * 2 ^ ces c * 2 ^ gran c + 0) by ring. rewrite lval_ef by lia.
    replace (2 ^ gran c + 0) with (2 ^ gran c) by ring. apply dy_pow2. exact G0. }
  assert (R2 : real c 2) by (unfold real, maxreal; rewrite SP; replace (cN c - 1) with (cN c - 3 + 1 + 1) by lia; rewrite !pow2_S by lia; lia).
  assert (L : (value c 2 <= Qabs (/ value c x))%Q).
  { rewrite Qabs_Qinv. apply Qle_shift_inv_l; [apply vnz; assumption|]. rewrite <- (value_abs c x V R).
    assert (W : (value c (Z.abs x) <= value c (maxreal c))%Q).
    { apply real_value_le; [exact V|apply real_abs; assumption| |]; unfold real in *; pose proof (maxreal_bounds c BN Bes); lia. }
    apply Qle_trans with (value c 2 * value c (maxreal c))%Q.
    - rewrite (Qmult_comm (value c 2)), (Qmult_comm (value c 2)). apply Qmult_le_compat_r; [exact W|]. rewrite V2. pose proof (pow2_pos (- (cN c - 3) * 2 ^ ces c)). lra.
    - rewrite V2, (maxreal_value c V), <- pow2_plus. change 1%Q with (pow2 0). apply pow2_le. unfold maxk. rewrite SP. cbn [spec_eqb]. nia. }
  pose proof (rounds_tz_mono c _ _ _ _ V L (rounds_tz_exact c BN Bes 2 R2) TA). lia.
Qed.
Lemma inv_inv x r s : mul_fits c -> real c x -> x <> 0 -> ~ (csp c = WithNanInf /\ (x = 1 \/ x = -1)) ->
  p_inv c x = Ok r -> p_inv c r = Ok s -> (Qabs (value c x) <= Qabs (value c s))%Q.
Proof using V X.
  intros MF R N NE O1 O2. pose proof V as V'. vcb V'. pose proof (vnz x R N) as PX. pose proof (least_inv x R N) as L.
  assert (T1 : rounds_tz c (/ value c x) r) by (apply (inv_partial c x V X MF R N); [tauto|exact O1]). pose proof (rounds_tz_real c BN Bes _ _ T1) as Q.
  pose proof (tz_down c _ _ V T1 L) as D.
  assert (NR : r <> 0).
  { intros ->. destruct (rounds_sign_ok c _ 0 V T1) as (S0 & _). assert (E : (/ value c x == 0)%Q) by (apply S0; reflexivity). rewrite E in L.
    pose proof (one_real c V) as R1. assert (P1 : (0 < value c 1)%Q) by (apply (proj2 (value_sign c 1 V R1)); lia). change (Qabs 0) with 0%Q in L. lra. }
  pose proof (vnz r Q NR) as PR.
  assert (T2 : rounds_tz c (/ value c r) s) by (apply (inv_partial c r V X MF Q NR); [|exact O2]; intros [SP K]; destruct (inv_not_least x r SP R N T1); tauto).
  apply (tz_abs_mono c _ _ _ _ V) with (2 := rounds_tz_exact c BN Bes x R) (3 := T2). rewrite Qabs_Qinv in *.
  apply Qle_shift_inv_l; [exact PR|]. rewrite Qmult_comm.
  setoid_replace 1%Q with (/ Qabs (value c x) * Qabs (value c x))%Q by (field; lra). apply Qmult_le_compat_r; lra.
Qed.

(** Midpoints. *)
Lemma vle a b : real c a -> real c b -> (value c a <= value c b)%Q -> a <= b.
Proof using V.
  intros A B L. pose proof V as V'. vcb V'. destruct (Z_lt_le_dec b a) as [G|G]; [|exact G]. exfalso.
  pose proof (real_bounds c BN Bes a A). pose proof (real_bounds c BN Bes b B). pose proof (value_lt c BN Bes b a ltac:(lia) G ltac:(lia)). lra.
Qed.
Lemma midpoint a b d h m : add_fits c -> real c a -> real c b -> (value c a <= value c b)%Q ->
  p_sub c b a = Ok d -> p_half c d = Ok h -> p_add c a h = Ok m -> (value c a <= value c m)%Q /\ (value c m <= value c b)%Q.
Proof using V X.
  intros AF A B L O1 O2 O3. pose proof V as V'. vcb V'. pose proof (add_fits_mul c AF) as MF. pose proof (one_real c V) as R1.
  assert (P1 : (0 < value c 1)%Q) by (apply (proj2 (value_sign c 1 V R1)); lia).
  pose proof (vle a b A B L) as LZ. pose proof (value_sign c a V A) as [Na Pa]. pose proof (value_sign c b V B) as [Nb Pb].
  destruct (sub_any c b a d V X AF B A O1) as [FD SD]. pose proof (proj1 FD) as RD. destruct SD as (S0 & S1 & S2).
  assert (PD : 0 <= d) by (destruct (Z_lt_le_dec d 0) as [G|G]; [apply S2 in G; lra|exact G]).
  assert (HH : real c h /\ (0 <= value c h)%Q /\ (value c a + value c h <= value c b)%Q).
  { destruct (Z.eq_dec d 1) as [E1|N1].
    { assert (Z : h = 0) by (apply (half_minpos_zero c d h V (or_introl E1) O2)). subst h. rewrite (value_0 c BN Bes). split; [|split; lra].
      unfold real. pose proof (maxreal_bounds c BN Bes). lia. }
    assert (T : rounds_tz c (value c d * (1 # 2)) h) by (apply (half_partial c d V RD); [exact N1|lia|exact O2]).
    pose proof (rounds_tz_real c BN Bes _ _ T) as RH. split; [exact RH|].
    assert (VD : (0 <= value c d)%Q) by (pose proof (value_sign c d V RD) as [H _]; destruct (Qlt_le_dec (value c d) 0) as [G|G]; [apply H in G; lia|exact G]).
    split.
    { destruct (rounds_sign_ok c _ h V T) as (_ & _ & H2). pose proof (value_sign c h V RH) as [H _]. destruct (Qlt_le_dec (value c h) 0) as [G|G]; [apply H, H2 in G; lra|exact G]. }
    destruct (tz_cases c (value c d * (1 # 2)) h V ltac:(lra) T) as [D|(-> & D1 & D2)].
    2:{ assert (K : (value c 1 <= value c b - value c a)%Q); [|lra]. destruct (Qlt_le_dec (value c b - value c a) (value c 1)) as [G|G]; [|exact G]. exfalso.
        assert (2 <= d) by (destruct (Z.eq_dec d 0) as [->|]; [rewrite (value_0 c BN Bes) in D1; lra|lia]).
        pose proof (real_bounds c BN Bes d RD). apply (proj1 (proj2 (proj2 FD)) 1 R1). split; [exact G|]. apply (value_lt c BN Bes); lia. }
    assert (ST : same_sign b a -> (Qabs (value c b) <= 2 * Qabs (value c a))%Q -> (Qabs (value c a) <= 2 * Qabs (value c b))%Q -> (value c d == value c b - value c a)%Q)
      by (intros SS K1 K2; apply (sub_sterbenz c b a V X AF B A SS K1 K2); exact O1).
    destruct (Z_lt_le_dec 0 a) as [G|G].
    - assert (QA : (0 < value c a)%Q) by tauto. assert (QB : (0 < value c b)%Q) by lra. assert (0 < b) by tauto.
      rewrite (Qabs_pos (value c a)), (Qabs_pos (value c b)) in ST by lra.
      destruct (Qlt_le_dec (2 * value c a) (value c b)) as [K|K]; [|rewrite ST in D by (try lra; unfold same_sign; lia); lra].
      assert ((value c d <= value c b)%Q) by (apply (fa_le c (value c b - value c a)); try assumption; lra). lra.
    - destruct (Z_lt_le_dec b 0) as [G'|G'].
      + assert (QB : (value c b < 0)%Q) by tauto. assert (QA : (value c a < 0)%Q) by lra. assert (a < 0) by tauto.
        rewrite (Qabs_neg (value c a)), (Qabs_neg (value c b)) in ST by lra.
        destruct (Qlt_le_dec (2 * (- value c b)) (- value c a)) as [K|K]; [|rewrite ST in D by (try lra; unfold same_sign; lia); lra].
        assert ((value c d <= value c (- a))%Q) by (apply (fa_le c (value c b - value c a)); [exact FD|apply nn; exact A|rewrite (value_opp c BN Bes a); lra]).
        rewrite (value_opp c BN Bes a) in *. lra.
      + rewrite (sub_opp b a A) in O1. pose proof (same_tz b (- a) d MF B (nn a A) ltac:(lia) O1) as TD.
        assert (LD : (0 <= value c b + value c (- a))%Q) by (rewrite (value_opp c BN Bes a); lra).
        destruct (tz_cases c _ d V LD TD) as [K|(K & _)]; [|contradiction]. rewrite (value_opp c BN Bes a) in K. lra. }
  destruct HH as (RH & H0 & H1). destruct (p_add_faithful c a h m V X AF A RH O3) as [FM _].
  split; [apply (fa_ge c (value c a + value c h)); try assumption; lra|apply (fa_le c (value c a + value c h)); try assumption].
Qed.

(** half(a + b): never beyond the larger operand. *)
Lemma half_le s h w : real c s -> real c w -> p_half c s = Ok h -> (Qabs (value c s) <= 2 * value c w)%Q -> (Qabs (value c h) <= value c w)%Q.
Proof using V X.
  intros S W O L. pose proof V as V'. vcb V'. pose proof (Qabs_nonneg (value c s)) as PS.
  assert (D : (s = 1 \/ s = -1) \/ (s <> 1 /\ s <> -1)) by lia. destruct D as [D|[D1 D2]].
  { rewrite (half_minpos_zero c s h V D O), (value_0 c BN Bes). change (Qabs 0) with 0%Q. lra. }
  assert (T : rounds_tz c (value c s * (1 # 2)) h) by (apply (half_partial c s V S D1 D2); exact O).
  assert (E : (value c w == Qabs (value c w))%Q) by (rewrite Qabs_pos; lra). rewrite E.
  apply (tz_abs_mono c _ _ _ _ V) with (2 := T) (3 := rounds_tz_exact c BN Bes w W). rewrite Qabs_Qmult. change (Qabs (1 # 2)) with (1 # 2)%Q. lra.
Qed.
Lemma half_sum_max a b s h : add_fits c -> real c a -> real c b -> p_add c a b = Ok s -> p_half c s = Ok h ->
  (Qabs (value c h) <= Qabs (value c a))%Q \/ (Qabs (value c h) <= Qabs (value c b))%Q.
Proof using V X.
  intros AF A B O1 O2. pose proof V as V'. vcb V'. pose proof (add_fits_mul c AF) as MF.
  destruct (p_add_faithful c a b s V X AF A B O1) as [F _]. pose proof (proj1 F) as RS.
  pose proof (real_abs c a V A) as A'. pose proof (real_abs c b V B) as B'. rewrite <- (value_abs c a V A), <- (value_abs c b V B).
  assert (K : forall w, real c w -> (Qabs (value c a) <= value c w)%Q -> (Qabs (value c b) <= value c w)%Q -> (Qabs (value c h) <= value c w)%Q).
  { intros w W LA LB. apply (half_le s h w RS W O2). pose proof (Qabs_nonneg (value c a)) as PA.
    pose proof (Qabs_triangle (value c a) (value c b)) as TR.
    destruct (Z.eq_dec a 0) as [->|NA].
    { assert ((Qabs (value c s) <= value c w)%Q); [|lra]. apply (fa_abs c (value c 0 + value c b)); try assumption. rewrite (value_0 c BN Bes), Qplus_0_l. exact LB. }
    assert (P1 : (value c 1 <= Qabs (value c a))%Q) by (rewrite <- (value_abs c a V A); apply real_value_le; try assumption; [apply one_real; exact V|lia]).
    destruct (Z_lt_le_dec 0 (a * b)) as [G|G].
    - assert (SG : 0 <= a /\ 0 <= b \/ a <= 0 /\ b <= 0) by nia. pose proof (same_tz a b s MF A B SG O1) as T.
      assert (E : (Qabs (value c a + value c b) == Qabs (value c a) + Qabs (value c b))%Q).
      { pose proof (value_sign c a V A) as [Na Pa]. pose proof (value_sign c b V B) as [Nb Pb].
        assert (SG' : (0 < a /\ 0 < b) \/ (a < 0 /\ b < 0)) by nia. destruct SG' as [[Ha Hb]|[Ha Hb]].
        - apply Pa in Ha. apply Pb in Hb. rewrite !Qabs_pos by lra. reflexivity.
        - apply Na in Ha. apply Nb in Hb. rewrite !Qabs_neg by lra. ring. }
      pose proof (Qabs_nonneg (value c b)) as PB. pose proof (tz_down c _ _ V T) as DN. rewrite E in DN. specialize (DN ltac:(lra)). lra.
    - assert ((Qabs (value c s) <= value c w)%Q); [|lra]. apply (fa_abs c (value c a + value c b)); try assumption.
      pose proof (value_sign c a V A) as [Na Pa]. pose proof (value_sign c b V B) as [Nb Pb].
      apply Qabs_Qle_condition in LA. apply Qabs_Qle_condition in LB. apply Qabs_Qle_condition.
      assert (SG' : (0 < a /\ b <= 0) \/ (a < 0 /\ 0 <= b)) by nia. destruct SG' as [[Ha Hb]|[Ha Hb]].
      + apply Pa in Ha. assert ((value c b <= 0)%Q) by (destruct (Qlt_le_dec 0 (value c b)) as [Y|Y]; [apply Pb in Y; lia|exact Y]). lra.
      + apply Na in Ha. assert ((0 <= value c b)%Q) by (destruct (Qlt_le_dec (value c b) 0) as [Y|Y]; [apply Nb in Y; lia|exact Y]). lra. }
  destruct (Qlt_le_dec (Qabs (value c a)) (Qabs (value c b))) as [G|G].
  - right. apply (K _ B'); rewrite (value_abs c b V B); lra.
  - left. apply (K _ A'); rewrite (value_abs c a V A); lra.
Qed.
Lemma half_sum_min a b u s h : mul_fits c -> real c a -> real c b -> real c u -> 0 < a -> (value c a <= value c b)%Q -> (value c u == 2 * value c a)%Q ->
  p_add c a b = Ok s -> p_half c s = Ok h -> (value c a <= value c h)%Q.
Proof using V X.
  intros MF A B U PA L EU O1 O2. pose proof V as V'. vcb V'. pose proof (vle a b A B L) as LZ.
  pose proof (same_tz a b s MF A B ltac:(lia) O1) as T. pose proof (rounds_tz_real c BN Bes _ _ T) as RS.
  assert (QA : (0 < value c a)%Q) by (apply (proj2 (value_sign c a V A)); exact PA).
  assert (US : u <= s) by (apply (rounds_tz_mono c (value c u) (value c a + value c b) u s V); [lra|apply (rounds_tz_exact c BN Bes u U)|exact T]).
  assert (AU : a < u) by (destruct (Z_lt_le_dec a u) as [G|G]; [exact G|]; pose proof (real_value_le c u a V U A G); lra).
  pose proof (real_value_le c u s V U RS US) as VS.
  assert (TH : rounds_tz c (value c s * (1 # 2)) h) by (apply (half_partial c s V RS); [lia|lia|exact O2]).
  apply real_value_le; [exact V|exact A|apply (rounds_tz_real c BN Bes _ _ TH)|].
  apply (rounds_tz_mono c (value c a) (value c s * (1 # 2)) a h V); [lra|apply (rounds_tz_exact c BN Bes a A)|exact TH].
Qed.
End Id.

Lemma triangle_abs c a b na nb r nr s : valid_cfg c -> exp_ok c -> add_fits c -> real c a -> real c b -> p_abs c a = Ok na -> p_abs c b = Ok nb ->
  p_add c a b = Ok r -> p_abs c r = Ok nr -> p_add c na nb = Ok s -> (value c nr <= value c s)%Q.
Proof.
  intros V X AF A B EA EB O1 O2 O3. rewrite (p_abs_real c a V A) in EA. rewrite (p_abs_real c b V B) in EB. injection EA as <-. injection EB as <-.
  pose proof (add_real c a b r V X AF A B O1) as R. rewrite (p_abs_real c r V R) in O2. injection O2 as <-. rewrite (value_abs c r V R). exact (triangle c V X a b r s AF A B O1 O3).
Qed.
Lemma sub_real c a b r : valid_cfg c -> exp_ok c -> add_fits c -> real c a -> real c b -> p_sub c a b = Ok r -> real c r.
Proof. intros V X AF A B O. apply (sub_any c a b r V X AF A B O). Qed.
Lemma rev_triangle_abs c a b na nb r nr s ns : valid_cfg c -> exp_ok c -> add_fits c -> real c a -> real c b -> p_abs c a = Ok na -> p_abs c b = Ok nb ->
  p_sub c na nb = Ok r -> p_abs c r = Ok nr -> p_sub c a b = Ok s -> p_abs c s = Ok ns -> (value c nr <= value c ns)%Q.
Proof.
  intros V X AF A B EA EB O1 O2 O3 O4. rewrite (p_abs_real c a V A) in EA. rewrite (p_abs_real c b V B) in EB. injection EA as <-. injection EB as <-.
  pose proof (sub_real c _ _ r V X AF (real_abs c a V A) (real_abs c b V B) O1) as R. pose proof (sub_real c a b s V X AF A B O3) as S.
  rewrite (p_abs_real c r V R) in O2. rewrite (p_abs_real c s V S) in O4. injection O2 as <-. injection O4 as <-. rewrite (value_abs c r V R), (value_abs c s V S).
  exact (rev_triangle c V X a b r s AF A B O1 O3).
Qed.
Lemma half_refuted_all c : valid_cfg c -> exp_ok c -> mul_fits c -> (csp c = WithNanInf -> cN c <> 3) ->
  forall r s, p_half c 1 = Ok r -> p_div c 1 (p_two c) = Ok s -> r = 0 /\ s = 1.
Proof.
  intros V X MF N3 r s H D. pose proof V as V'. vcb V'. pose proof (one_real c V) as R1. pose proof (two_real c V N3) as R2. pose proof (two_value c V) as V2.
  assert (NZ : p_two c <> 0) by (intros E; rewrite E, (value_0 c BN Bes) in V2; lra).
  split; [apply (half_minpos_zero c 1 r V (or_introl eq_refl) H)|].
  pose proof (p_div_rounds c 1 (p_two c) V X MF R1 R2 NZ s D) as T. apply (rounds_tz_comp c BN Bes _ (value c 1 * (1 # 2))) in T; [|rewrite V2; reflexivity].
  assert (P1 : (0 < value c 1)%Q) by (apply (proj2 (value_sign c 1 V R1)); lia).
  destruct (tz_cases c (value c 1 * (1 # 2)) s V ltac:(lra) T) as [K|(K & _)]; [exfalso|exact K].
  destruct (rounds_sign_ok c _ s V T) as (_ & S1 & _). assert (0 < s) by (apply S1; lra).
  pose proof (real_value_le c 1 s V R1 (rounds_tz_real c BN Bes _ _ T) ltac:(lia)). lra.
Qed.
