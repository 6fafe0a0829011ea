(** Neighbouring posits and the numbers between them. *)
From Coq Require Import ZArith QArith Qabs Qround Bool List Lia Lqa.
From Verif Require Import Res CInt Traits Unpacked Cfg Spec SpecFloat SpecAny Posit FloatOps AnyFloat Asimd Soft ListP Dump SpecDump QPow Core Arith SpecLemmas DecodeProof EncodeProof UOps UAdd Ops OpsUnary
  Final1 Final4 Conv1 Conv5 FloatProof PositFProof PositFProof2 AnyProof AnyProof2 AnyProof3 SoftProof ListProof DumpProof DumpProof2 DumpProof3 DumpProof4 DumpProof5 DumpProof6 NearProof.
Import ListNotations.
Open Scope Z_scope.

(** A positive normal float on its own grid. *)
Lemma isf_norm q : isf q -> (pow2 (-1000) <= q)%Q -> (q <= pow2 900)%Q -> exists m j, 2 ^ 52 <= m < 2 ^ 53 /\ (q == dy m j)%Q.
Proof.
  intros (b & x & B & I & X) L U. destruct (ieee_code_inv 11 52 fmt_d b x B I) as (s & g & G & _ & EQ). rewrite X in EQ. pose proof (pow2_pos (-1000)) as P.
  destruct s; cbn [sgq] in EQ; [pose proof (mval_le 11 52 fmt_d 0 g ltac:(lia) ltac:(lia)) as H; pose proof (mval_0 11 52 fmt_d); lra|].
  destruct (Z_lt_le_dec g (2 ^ 52)) as [S|S].
  - rewrite (mval_low 11 52 fmt_d g ltac:(lia)) in EQ. assert (K : (dy g ((2 - 2 ^ (11 - 1)) - 52) < dy (2 ^ 52) ((2 - 2 ^ (11 - 1)) - 52))%Q) by (apply dy_lt; lia). rewrite dy_pow2' in K by lia.
    assert (K2 : (pow2 ((2 - 2 ^ (11 - 1)) - 52 + 52) <= pow2 (-1000))%Q) by (apply pow2_le; vm_compute; discriminate). lra.
  - rewrite (mval_ge 11 52 g S) in EQ. unfold lval in EQ. set (y := g + ((2 - 2 ^ (11 - 1)) - 1) * 2 ^ 52) in *. exists (2 ^ 52 + y mod 2 ^ 52), (y / 2 ^ 52 - 52). split; [|exact EQ].
    pose proof (Z.mod_pos_bound y (2 ^ 52) ltac:(lia)). lia.
Qed.

Lemma lval_gap g y y' : 0 <= g -> y < y' -> (lval g y' * pow2 (- g - 1) <= lval g y' - lval g y)%Q.
Proof.
  intros G L. pose proof (lval_le g y (y' - 1) G ltac:(lia)) as M. set (z := y' - 1) in *. replace y' with (z + 1) by lia. clearbody z. clear L.
  pow_pos 2 g. pose proof (Z.div_mod z (2 ^ g) ltac:(lia)) as DM. pose proof (Z.mod_pos_bound z (2 ^ g) ltac:(lia)) as MB. set (e := z / 2 ^ g) in *. set (f := z mod 2 ^ g) in *.
  assert (Z0 : z = e * 2 ^ g + f) by lia. assert (Z1 : z + 1 = e * 2 ^ g + (f + 1)) by lia.
  pose proof (lval_ef' g e f G ltac:(lia)) as A. pose proof (lval_ef' g e (f + 1) G ltac:(lia)) as B. rewrite <- Z0 in A. rewrite <- Z1 in B.
  assert (D : (lval g (z + 1) == lval g z + pow2 (e - g))%Q) by (rewrite A, B, <- dy_succ; replace (2 ^ g + f + 1) with (2 ^ g + (f + 1)) by lia; reflexivity).
  assert (U : (lval g (z + 1) <= pow2 (e + 1))%Q).
  { rewrite B. apply Qle_trans with (dy (2 ^ (g + 1)) (e - g)); [apply dy_le; rewrite Z.pow_add_r by lia; lia|]. rewrite dy_pow2' by lia. apply pow2_le. lia. }
  assert (P : (pow2 (e + 1) * pow2 (- g - 1) == pow2 (e - g))%Q) by (rewrite <- pow2_plus; replace (e + 1 + (- g - 1)) with (e - g) by lia; reflexivity).
  pose proof (pow2_pos (- g - 1)). assert (X : (lval g (z + 1) * pow2 (- g - 1) <= pow2 (e + 1) * pow2 (- g - 1))%Q) by (apply Qmult_le_compat_r; lra). lra.
Qed.

Section c.
Context (c : cfg).
Hypothesis V : valid_cfg c.
Hypothesis FC : float_covers c 11 52.
Hypothesis SM : cN c + 2 ^ ces c <= 48.
Hypothesis RE : emax c + gran c <= 390.

(** Steps between positive posits. *)
Lemma gap_low p : 1 <= p < 2 ^ (cN c - 1) -> (value c p * pow2 (- gran c - 1) <= value c p - value c (p - 1))%Q.
Proof using V.
  intros P. vcb V. pose proof (gran_nonneg c BN Bes) as G. destruct (Z.eq_dec p 1) as [->|N].
  - change (value c (1 - 1)) with 0%Q. pose proof (value_pos c BN Bes 1 ltac:(lia)) as VP. assert (T : (pow2 (- gran c - 1) <= 1)%Q) by (rewrite <- pow2_0; apply pow2_le; lia). nra.
  - rewrite (value_pos_lval c BN Bes p ltac:(lia)), (value_pos_lval c BN Bes (p - 1) ltac:(lia)). apply lval_gap; [exact G|]. apply pdec_lt; lia.
Qed.
Lemma gap_high p : 1 <= p -> p + 1 < 2 ^ (cN c - 1) -> (value c (p + 1) <= value c p * pow2 (2 ^ ces c))%Q.
Proof using V.
  intros P1 P2. vcb V. pose proof (gran_nonneg c BN Bes) as G. rewrite (value_pos_lval c BN Bes p ltac:(lia)), (value_pos_lval c BN Bes (p + 1) ltac:(lia)).
  rewrite <- lval_shift by exact G. apply lval_le; [exact G|]. pose proof (pdec_step (cN c) p BN P1 P2) as S.
  assert (E : 2 ^ (cN c - 3) = 2 ^ ces c * 2 ^ gran c) by (rewrite <- Z.pow_add_r by lia; f_equal; unfold gran; lia). lia.
Qed.
Lemma real_pat v : real c v -> - 2 ^ (cN c - 1) < v < 2 ^ (cN c - 1).
Proof using V. intros R. pose proof (mb c V). unfold real in R. lia. Qed.
Lemma step_up v : real c v -> real c (v + 1) -> (value c v < value c (v + 1))%Q.
Proof using V. intros R S. vcb V. pose proof (real_pat v R). pose proof (real_pat _ S). apply value_lt; lia. Qed.
Lemma reach_gap v : real c v -> real c (v + 1) -> (pow2 (-390) <= value c (v + 1) - value c v)%Q.
Proof using V FC RE.
  intros R S. destruct (grid c V FC v R) as (z & Z). destruct (grid c V FC _ S) as (y & Y). pose proof (step_up v R S) as L. rewrite Z, Y in L. apply dy_lt_inv in L.
  pose proof (dy_le (z + 1) y (- emax c - gran c) ltac:(lia)) as L2. rewrite dy_succ in L2. rewrite Z, Y. pose proof (pow2_le (-390) (- emax c - gran c) ltac:(lia)). lra.
Qed.
(** The step below a posit is not much smaller than the step above it. *)
Lemma gaps v : real c (v - 1) -> real c v -> real c (v + 1) -> ((value c (v + 1) - value c v) * pow2 (-47) <= value c v - value c (v - 1))%Q.
Proof using V SM.
  intros R1 R2 R3. vcb V. pose proof (gran_nonneg c BN Bes) as G. pose proof (real_pat _ R1). pose proof (real_pat _ R2). pose proof (real_pat _ R3). pow_pos 2 (ces c).
  assert (GR : gran c + 2 ^ ces c <= 45) by (unfold gran; lia).
  destruct (Z.lt_trichotomy v 0) as [L|[->|L]].
  - set (p := - v) in *. replace v with (- p) by lia. replace (- p + 1) with (- (p - 1)) by lia. replace (- p - 1) with (- (p + 1)) by lia. rewrite !(value_opp c BN Bes).
    pose proof (gap_low (p + 1) ltac:(lia)) as A. replace (p + 1 - 1) with p in A by lia. pose proof (value_lt c BN Bes p (p + 1) ltac:(lia) ltac:(lia) ltac:(lia)) as B.
    assert (P0 : (0 <= value c (p - 1))%Q) by (destruct (Z.eq_dec p 1) as [->|N]; [change (value c (1 - 1)) with 0%Q; lra|apply Qlt_le_weak, (value_pos c BN Bes); lia]).
    pose proof (value_pos c BN Bes p ltac:(lia)) as P1.
    pose proof (pow2_le (-47) (- gran c - 1) ltac:(lia)) as PW. pose proof (pow2_pos (-47)) as P47. set (s := pow2 (-47)) in *. set (r := pow2 (- gran c - 1)) in *. clearbody s r.
    assert ((value c p - value c (p - 1)) * s <= value c (p + 1) * r)%Q by nra. lra.
  - change (0 - 1) with (- (0 + 1)). rewrite (value_opp c BN Bes). change (value c 0) with 0%Q. pose proof (value_pos c BN Bes (0 + 1) ltac:(lia)) as P1. assert (T : (pow2 (-47) <= 1)%Q) by (vm_compute; discriminate). nra.
  - pose proof (gap_low v ltac:(lia)) as A. pose proof (gap_high v ltac:(lia) ltac:(lia)) as B. pose proof (value_pos c BN Bes v ltac:(lia)) as P.
    assert (PW : (pow2 (2 ^ ces c) * pow2 (-47) <= pow2 (- gran c - 1))%Q) by (rewrite <- pow2_plus; apply pow2_le; lia).
    pose proof (pow2_pos (-47)) as P47. pose proof (pow2_pos (2 ^ ces c)) as PE. set (s := pow2 (-47)) in *. set (r := pow2 (- gran c - 1)) in *. set (k := pow2 (2 ^ ces c)) in *. clearbody s r k.
    assert (X1 : (value c (v + 1) * s <= value c v * k * s)%Q) by (apply Qmult_le_compat_r; lra).
    assert (X2 : (value c v * (k * s) <= value c v * r)%Q) by (rewrite !(Qmult_comm (value c v)); apply Qmult_le_compat_r; lra). nra.
Qed.
(** The ends of an interval of posits on the grid of a float within. *)
Lemma on_fine p m j : 0 <= p -> real c (p + 1) -> 2 ^ 52 <= m < 2 ^ 53 -> (value c p <= dy m j)%Q -> (dy m j <= value c (p + 1))%Q ->
  exists l r, (value c p == dy (2 * l) j)%Q /\ (value c (p + 1) == dy (2 * r) j)%Q.
Proof using V FC SM.
  intros P R M L U. vcb V. pose proof (real_pat _ R) as RP. pose proof (gran_nonneg c BN Bes) as G. pow_pos 2 (ces c). assert (GR : gran c + 2 ^ ces c <= 45) by (unfold gran; lia).
  assert (RF : forall v lo, real c v -> 1 <= v -> (pow2 lo <= value c v)%Q -> j + 1 + gran c <= lo -> exists l, (value c v == dy (2 * l) j)%Q).
  { intros v lo Rv V1 B LO. destruct (dyadic c V FC v Rv ltac:(lia)) as (n & e & k & A & K & E & S1 & S2). pose proof (value_pos c BN Bes v ltac:(pose proof (real_pat v Rv); lia)) as VP.
    rewrite Qabs_pos in S2 by lra. assert (LE : lo < e + 1) by (apply pow2_lt_inv; lra).
    assert (N : n = false) by (destruct n; [|reflexivity]; cbn [sgq] in A; pow_pos 2 (gran c); pose proof (dy_pos k (e - gran c) ltac:(lia)); lra). subst n. cbn [sgq] in A.
    exists (k * 2 ^ (e - gran c - j - 1)). rewrite A. rewrite (dy_align k (e - gran c) j) by lia. replace (2 * (k * 2 ^ (e - gran c - j - 1))) with (k * (2 ^ 1 * 2 ^ (e - gran c - j - 1))) by ring.
    rewrite <- Z.pow_add_r by lia. replace (1 + (e - gran c - j - 1)) with (e - gran c - j) by lia. reflexivity. }
  assert (Q : (pow2 (j + 52) <= dy m j)%Q) by (rewrite <- dy_pow2' by lia; apply dy_le; lia).
  destruct (RF (p + 1) (j + 52) R ltac:(lia)) as (r & RR); [lra|lia|]. 
  destruct (Z.eq_dec p 0) as [->|N]; [exists 0, r; split; [symmetry; apply dy_0|exact RR]|].
  destruct (RF p (j + 52 - 2 ^ ces c)) as (l & LL); [unfold real in *; lia|lia| |lia|exists l, r; auto].
  pose proof (gap_high p ltac:(lia) ltac:(lia)) as H1. pose proof (pow2_pos (2 ^ ces c)) as PE.
  assert (X : (pow2 (j + 52 - 2 ^ ces c) * pow2 (2 ^ ces c) == pow2 (j + 52))%Q) by (rewrite <- pow2_plus; replace (j + 52 - 2 ^ ces c + 2 ^ ces c) with (j + 52) by lia; reflexivity).
  apply (Qmult_le_r _ _ (pow2 (2 ^ ces c)) PE). lra.
Qed.
End c.

Section b.
Context (rnd : Q -> Z) (c : cfg).
Hypothesis RN : rounding 11 52 rnd.
Hypothesis V : valid_cfg c.
Hypothesis FC : float_covers c 11 52.
Hypothesis SM : cN c + 2 ^ ces c <= 48.
Hypothesis RE : emax c + gran c <= 390.

(** Distances are compared rightly when they are not too close. *)
Lemma far_or d D : (0 <= d)%Q -> (d <= D)%Q -> (pow2 (-391) <= D)%Q -> (D <= pow2 400)%Q ->
  (forall x x' u u', sqd rnd x u -> sqd rnd x' u' -> (Qabs x == d)%Q -> (Qabs x' == D)%Q -> (u < u')%Q) \/ (pow2 (-392) <= d)%Q.
Proof using RN.
  clear V FC SM RE. intros D0 L B U. pose proof (pow2_pos (-505)) as T0. pose proof (pow2_pos (-48)) as T1. assert (T2 : (pow2 (-48) <= 1)%Q) by (vm_compute; discriminate).
  destruct (Qlt_le_dec d (pow2 (-392))) as [K|K]; [left|right; exact K].
  assert (T3 : (pow2 (-391) == 2 * pow2 (-392))%Q) by (change (-391) with (-392 + 1); apply pow2_dbl).
  intros x x' u u' S S' X X'. apply (sqd_far rnd RN x x' u u' (pow2 (-392)) S S').
  - apply pow2_le. lia.
  - apply pow2_le. lia.
  - lra.
  - rewrite X'. pose proof (pow2_pos (-392)). nra.
Qed.
Lemma bracket_pos p q x x' u u' : 0 <= p -> real c (p + 1) -> isf q -> (value c p <= q)%Q -> (q <= value c (p + 1))%Q -> sqd rnd x u -> sqd rnd x' u' ->
  (Qabs x == q - value c p)%Q -> (Qabs x' == value c (p + 1) - q)%Q ->
  ((Qabs x < Qabs x')%Q -> (u < u')%Q) /\ ((Qabs x' < Qabs x)%Q -> (u' < u)%Q) /\ ((Qabs x == Qabs x')%Q -> (u == u')%Q).
Proof using RN V FC SM RE.
  intros P R QF L U S S' X X'. vcb V. pose proof (emax_bound c V FC) as [EB GB].
  assert (Rp : real c p) by (unfold real in *; lia). pose proof (reach_gap c V FC RE p Rp R) as GAP. pose proof (value_small c V FC _ R) as SMALL.
  pose proof (real_pat c V _ R) as RP. pose proof (value_pos c BN Bes (p + 1) ltac:(lia)) as UP. rewrite Qabs_pos in SMALL by lra.
  assert (L0 : (0 <= value c p)%Q) by (destruct (Z.eq_dec p 0) as [->|N]; [change (value c 0) with 0%Q; lra|apply Qlt_le_weak, (value_pos c BN Bes); lia]).
  pose proof (pow2_le (emax c + 1) 391 ltac:(lia)) as BIG. pose proof (pow2_le 391 400 ltac:(lia)) as BIG2.
  assert (T3 : (pow2 (-390) == 2 * pow2 (-391))%Q) by (change (-390) with (-391 + 1); apply pow2_dbl). pose proof (pow2_pos (-391)) as T4.
  assert (CL : (pow2 (-392) <= q - value c p)%Q -> (pow2 (-392) <= value c (p + 1) - q)%Q -> exists n n' j, (Qabs x == dy n j)%Q /\ (Qabs x' == dy n' j)%Q /\ -550 <= j <= 350 /\ (n < n' -> n + 2 <= n') /\ (n' < n -> n' + 2 <= n) /\ 0 < n < 2 ^ 53 /\ 0 < n').
  { intros D1 D2. destruct (isf_norm q QF) as (m & j & M & E).
    - pose proof (pow2_le (-1000) (-392) ltac:(lia)). lra.
    - pose proof (pow2_le 391 900 ltac:(lia)). lra.
    - assert (J1 : -392 < j + 53).
      { apply pow2_lt_inv. rewrite <- dy_pow2' by lia. pose proof (dy_lt m (2 ^ 53) j ltac:(lia)). lra. }
      assert (J2 : j + 52 < 391).
      { apply pow2_lt_inv. rewrite <- dy_pow2' by lia. pose proof (dy_le (2 ^ 52) m j ltac:(lia)). lra. }
      destruct (on_fine c V FC SM p m j P R M ltac:(lra) ltac:(lra)) as (l & r & EL & ER).
      assert (N1 : (q - value c p == dy (m - 2 * l) j)%Q) by (rewrite E, EL; unfold dy; rewrite <- (Z.add_opp_r m), inject_Z_plus, inject_Z_opp; ring).
      assert (N2 : (value c (p + 1) - q == dy (2 * r - m) j)%Q) by (rewrite E, ER; unfold dy; rewrite <- (Z.add_opp_r (2 * r)), inject_Z_plus, inject_Z_opp; ring).
      pose proof (pow2_pos (-392)) as P3.
      assert (P1 : 0 < m - 2 * l) by (apply (dy_lt_inv _ _ j); rewrite dy_0; lra). assert (P2 : 0 < 2 * r - m) by (apply (dy_lt_inv _ _ j); rewrite dy_0; lra).
      assert (P4 : 0 <= 2 * l) by (apply (dy_le_inv _ _ j); rewrite dy_0; lra).
      exists (m - 2 * l), (2 * r - m), j. repeat split; try lia; [rewrite X; exact N1|rewrite X'; exact N2]. }
  pose proof (pow2_pos (-392)) as P392. pose proof (pow2_le (-505) (-392) ltac:(lia)) as P505.
  assert (LT : forall a b w w' (A : sqd rnd a w) (B : sqd rnd b w'), (Qabs a < Qabs b)%Q -> (Qabs a + Qabs b == value c (p + 1) - value c p)%Q -> (w < w')%Q \/ (pow2 (-392) <= Qabs a)%Q).
  { intros a b w w' A B LT SUM. pose proof (Qabs_nonneg a) as NA. destruct (far_or (Qabs a) (Qabs b) NA ltac:(lra) ltac:(lra) ltac:(lra)) as [F|F]; [left; exact (F a b w w' A B (Qeq_refl _) (Qeq_refl _))|right; exact F]. }
  split; [|split].
  - intros H. destruct (LT x x' u u' S S' H ltac:(lra)) as [F|F]; [exact F|]. destruct (CL ltac:(lra) ltac:(lra)) as (n & n' & j & E & E' & J & K1 & K2 & NB & _).
    rewrite E, E' in H. apply dy_lt_inv in H. apply (sqd_exact rnd RN x x' u u' n n' j S S' J); try lia; try assumption. lra.
  - intros H. destruct (LT x' x u' u S' S H ltac:(lra)) as [F|F]; [exact F|]. destruct (CL ltac:(lra) ltac:(lra)) as (n & n' & j & E & E' & J & K1 & K2 & NB & _).
    rewrite E, E' in H. apply dy_lt_inv in H. apply (sqd_exact rnd RN x' x u' u n' n j S' S J); try lia; try assumption. lra.
  - intros H. assert (T5 : (pow2 (-391) == 2 * pow2 (-392))%Q) by (change (-391) with (-392 + 1); apply pow2_dbl). destruct (CL ltac:(lra) ltac:(lra)) as (n & n' & j & E & E' & J & K1 & K2 & NB & _). assert (n = n') as <- by (apply (dy_eq_inv _ _ j); rewrite <- E, <- E'; exact H).
    apply (sqd_tie rnd RN x x' u u' n j S S' J); try lia; assumption.
Qed.
Lemma bracket v q x x' u u' : real c v -> real c (v + 1) -> isf q -> (value c v <= q)%Q -> (q <= value c (v + 1))%Q -> sqd rnd x u -> sqd rnd x' u' ->
  (Qabs x == q - value c v)%Q -> (Qabs x' == value c (v + 1) - q)%Q ->
  ((Qabs x < Qabs x')%Q -> (u < u')%Q) /\ ((Qabs x' < Qabs x)%Q -> (u' < u)%Q) /\ ((Qabs x == Qabs x')%Q -> (u == u')%Q).
Proof using RN V FC SM RE.
  intros Rv R QF L U S S' X X'. destruct (Z_le_gt_dec 0 v) as [P|P]; [apply (bracket_pos v q); assumption|]. vcb V.
  pose proof (value_opp c BN Bes v) as O1. pose proof (value_opp c BN Bes (v + 1)) as O2.
  destruct (bracket_pos (- (v + 1)) (- q) x' x u' u) as (A & B & C); try assumption; try lia.
  - replace (- (v + 1) + 1) with (- v) by lia. unfold real in *. lia.
  - apply (is_float_opp 11 52 fmt_d). exact QF.
  - lra.
  - replace (- (v + 1) + 1) with (- v) by lia. lra.
  - rewrite X'. lra.
  - replace (- (v + 1) + 1) with (- v) by lia. lra.
  - split; [exact B|]. split; [exact A|]. intros E. symmetry. apply C. symmetry. exact E.
Qed.
(** The posit below the nearest one is farther. *)
Lemma below v q x x' u u' : real c (v - 1) -> real c v -> (value c v <= q)%Q -> (real c (v + 1) -> q - value c v <= value c (v + 1) - q)%Q -> (q <= 2 * value c (maxreal c))%Q ->
  sqd rnd x u -> sqd rnd x' u' -> (Qabs x == q - value c v)%Q -> (Qabs x' == q - value c (v - 1))%Q -> (u < u')%Q.
Proof using RN V FC SM RE.
  intros R1 R2 L N U S S' X X'. vcb V. pose proof (emax_bound c V FC) as [EB GB]. pose proof (mb c V) as MB.
  assert (RG : real c (v - 1 + 1)) by (replace (v - 1 + 1) with v by lia; exact R2). pose proof (reach_gap c V FC RE (v - 1) R1 RG) as GAP. replace (v - 1 + 1) with v in GAP by lia.
  assert (SMALL : (q - value c v <= pow2 393)%Q /\ (q - value c (v - 1) <= pow2 394)%Q).
  { assert (RM : real c (maxreal c)) by (unfold real; lia). pose proof (value_small c V FC _ RM) as S1. pose proof (value_small c V FC _ R1) as S2. pose proof (value_small c V FC _ R2) as S3.
    pose proof (pow2_le (emax c + 1) 391 ltac:(lia)) as BIG. pose proof (Qle_Qabs (value c (maxreal c))). pose proof (Qle_Qabs (- value c v)) as A1. pose proof (Qle_Qabs (- value c (v - 1))) as A2. rewrite Qabs_opp in A1, A2.
    assert (E1 : (pow2 393 == 4 * pow2 391)%Q) by (change 393 with (391 + 1 + 1); rewrite !pow2_dbl; ring). assert (E2 : (pow2 394 == 8 * pow2 391)%Q) by (change 394 with (391 + 1 + 1 + 1); rewrite !pow2_dbl; ring). lra. }
  destruct SMALL as [SM1 SM2]. pose proof (pow2_le 394 400 ltac:(lia)) as B4. pose proof (pow2_le 393 400 ltac:(lia)) as B3. pose proof (pow2_pos (-48)) as T1. assert (T2 : (pow2 (-48) <= 1)%Q) by (vm_compute; discriminate).
  assert (G : ((q - value c v) * pow2 (-48) <= value c v - value c (v - 1))%Q).
  { destruct (Z.eq_dec v (maxreal c)) as [->|NM].
    - pose proof (gap_low c V (maxreal c) ltac:(lia)) as GL. pose proof (value_pos c BN Bes (maxreal c) ltac:(lia)) as VP.
      pose proof (pow2_le (-48) (- gran c - 1) ltac:(unfold gran; pow_pos 2 (ces c); lia)) as PW. set (s := pow2 (-48)) in *. set (r := pow2 (- gran c - 1)) in *. clearbody s r. nra.
    - assert (R3 : real c (v + 1)) by (unfold real in *; lia). specialize (N R3). pose proof (gaps c V SM v R1 R2 R3) as GG.
      assert (E : (pow2 (-47) == 2 * pow2 (-48))%Q) by (change (-47) with (-48 + 1); apply pow2_dbl). rewrite E in GG. set (s := pow2 (-48)) in *. clearbody s. nra. }
  assert (T3 : (pow2 (-390) == 2 * pow2 (-391))%Q) by (change (-390) with (-391 + 1); apply pow2_dbl). pose proof (pow2_pos (-391)) as T4.
  destruct (Qlt_le_dec (q - value c v) (pow2 (-391))) as [K|K].
  - apply (sqd_far rnd RN x x' u u' (pow2 (-391)) S S'); [apply pow2_le; lia|apply pow2_le; lia|lra|]. rewrite X'. nra.
  - apply (sqd_far rnd RN x x' u u' (q - value c v) S S'); [|lra|lra|rewrite X'; lra]. pose proof (pow2_le (-505) (-391) ltac:(lia)). lra.
Qed.
End b.
