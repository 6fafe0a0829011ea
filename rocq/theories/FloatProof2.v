(** [rne] rounds to nearest, ties to even. *)
From Coq Require Import ZArith QArith Qabs Qround Lia Lqa List Bool.
From Verif Require Import Res CInt Bits Traits Cfg Spec SpecFloat FloatOps QPow Core SpecLemmas Arith DecodeProof EncodeProof UOps UAdd Ops
  OpsAdd Room Laws Configs Final1 Conv1 Conv2 Conv3 Conv4 Conv5 FloatProof.
Open Scope Z_scope.

Lemma inj_neq1 i j : i <> j -> (1 <= Qabs (inject_Z i - inject_Z j))%Q.
Proof.
  intros N. assert (E : (inject_Z i - inject_Z j == inject_Z (i - j))%Q) by (unfold Z.sub; rewrite inject_Z_plus, inject_Z_opp; reflexivity).
  rewrite E. assert (Qabs (inject_Z (i - j)) == inject_Z (Z.abs (i - j)))%Q as -> by reflexivity.
  change 1%Q with (inject_Z 1). rewrite <- Zle_Qle. lia.
Qed.
Lemma abs_case x : (0 <= x)%Q /\ (Qabs x == x)%Q \/ (x <= 0)%Q /\ (Qabs x == - x)%Q.
Proof. destruct (Qlt_le_dec x 0); [right|left]; (split; [lra|]); [apply Qabs_neg; lra|apply Qabs_pos; lra]. Qed.

Lemma rint_nearest x j : (Qabs (x - inject_Z (rint x)) <= Qabs (x - inject_Z j))%Q.
Proof.
  destruct (Z.eq_dec (rint x) j) as [->|N]; [lra|]. pose proof (rint_near x) as R. pose proof (inj_neq1 _ _ N) as D.
  destruct (abs_case (x - inject_Z (rint x))) as [[A1 A2]|[A1 A2]], (abs_case (x - inject_Z j)) as [[B1 B2]|[B1 B2]],
    (abs_case (inject_Z (rint x) - inject_Z j)) as [[C1 C2]|[C1 C2]]; rewrite A2, B2 in *; lra.
Qed.
Lemma rint_tie x j : rint x <> j -> (Qabs (x - inject_Z (rint x)) == Qabs (x - inject_Z j))%Q -> Z.even (rint x) = true.
Proof.
  intros N E. pose proof (rint_near x) as R. pose proof (inj_neq1 _ _ N) as D.
  assert (H : (Qabs (x - inject_Z (rint x)) == 1 # 2)%Q).
  { destruct (abs_case (x - inject_Z (rint x))) as [[A1 A2]|[A1 A2]], (abs_case (x - inject_Z j)) as [[B1 B2]|[B1 B2]],
      (abs_case (inject_Z (rint x) - inject_Z j)) as [[C1 C2]|[C1 C2]]; rewrite A2, B2 in *; lra. }
  clear N E R D. unfold rint in *. pose proof (Qfloor_le x) as L. pose proof (Qlt_floor x) as U.
  set (f := Qfloor x) in *. rewrite inject_Z_plus in U. change (inject_Z 1) with 1%Q in U.
  destruct (Qcompare_spec (x - inject_Z f) (1 # 2)) as [E|E|E].
  - destruct (Z.even f) eqn:V; [exact V|]. rewrite Z.even_add, V. reflexivity.
  - exfalso. rewrite Qabs_pos in H by lra. lra.
  - exfalso. rewrite inject_Z_plus in H. change (inject_Z 1) with 1%Q in H. rewrite Qabs_neg in H by lra. lra.
Qed.

Section fmt2.
Variables eb fb : Z.
Hypothesis FO : fmt_ok eb fb.
Let emin := 2 - 2 ^ (eb - 1).
Let top := (2 ^ eb - 1) * 2 ^ fb.

Lemma mval_code q : (0 < q)%Q ->
  (mval eb fb (code eb fb q) == dy (rint (q * pow2 (fb - Z.max (qexp q) emin))) (Z.max (qexp q) emin - fb))%Q.
Proof using FO.
  intros P. unfold code. fold emin. set (k := Z.max (qexp q) emin). set (r := rint (q * pow2 (fb - k))).
  pose proof (code_low eb fb FO q P) as [R0 R1]. fold emin k r in R0, R1. pose proof (fb_pos eb fb FO) as FP. destruct FO as [_ _ Hf].
  assert (F1 : 2 ^ (fb + 1) = 2 * 2 ^ fb) by (rewrite Z.pow_add_r by lia; ring).
  assert (HI : 2 ^ fb <= r -> (mval eb fb ((k - emin) * 2 ^ fb + r) == dy r (k - fb))%Q).
  { intros R2. rewrite mval_ge by (subst k; nia). fold emin.
    replace ((k - emin) * 2 ^ fb + r + (emin - 1) * 2 ^ fb) with (k * 2 ^ fb + (r - 2 ^ fb)) by ring.
    rewrite lval_ef' by lia. replace (2 ^ fb + (r - 2 ^ fb)) with r by lia. reflexivity. }
  destruct (Z_lt_le_dec r (2 ^ fb)) as [A|A]; [|apply HI; exact A].
  assert (KE : k = emin).
  { destruct (Z_le_gt_dec (qexp q) emin) as [L|L]; [subst k; lia|]. exfalso.
    assert (K : k = qexp q) by (subst k; lia). destruct (code_scaled eb fb FO q (qexp q) eq_refl P) as [_ S]. rewrite <- K in S.
    pose proof (rint_ge_int _ _ S). subst r. lia. }
  rewrite KE. replace ((emin - emin) * 2 ^ fb + r) with r by ring. apply mval_low; [assumption|lia].
Qed.

(** A float is a multiple of the spacing at [q], or a power of two lies strictly nearer. *)
Lemma grid q h : (0 < q)%Q -> 0 <= h -> let k := Z.max (qexp q) emin in
  exists j, (mval eb fb h == dy j (k - fb))%Q \/ (Qabs (q - dy j (k - fb)) < Qabs (q - mval eb fb h))%Q.
Proof using FO.
  intros P H k. pose proof (fb_pos eb fb FO) as FP. destruct (qexp_spec q P) as [Q1 Q2].
  assert (Hf : 1 <= fb) by (destruct FO; assumption).
  assert (F1 : 2 ^ (fb + 1) = 2 * 2 ^ fb) by (rewrite Z.pow_add_r by lia; ring).
  assert (D1 : (dy (2 ^ fb) (k - fb) == pow2 k)%Q).
  { unfold dy. rewrite <- pow2_Z, <- pow2_plus by lia. replace (fb + (k - fb)) with k by lia. reflexivity. }
  assert (D2 : (dy (2 ^ (fb + 1)) (k - fb) == pow2 (k + 1))%Q).
  { unfold dy. rewrite <- pow2_Z, <- pow2_plus by lia. replace (fb + 1 + (k - fb)) with (k + 1) by lia. reflexivity. }
  destruct (Z_le_gt_dec h (2 ^ fb)) as [A|A].
  - destruct (Z.eq_dec k emin) as [K|K].
    + exists h. left. rewrite K. apply mval_low; [assumption|lia].
    + exists (2 ^ fb). right. rewrite D1. assert (KQ : k = qexp q) by (subst k; lia). rewrite KQ.
      assert (B : (mval eb fb h < pow2 (qexp q))%Q).
      { apply Qle_lt_trans with (pow2 emin); [|apply pow2_lt; subst k; lia].
        eapply Qle_trans; [apply (mval_le eb fb FO h (2 ^ fb)); lia|]. rewrite mval_low by (assumption || lia). fold emin.
        unfold dy. rewrite <- pow2_Z, <- pow2_plus by lia. replace (fb + (emin - fb)) with emin by lia. lra. }
      rewrite !Qabs_pos by lra. lra.
  - pose proof (Z.div_mod h (2 ^ fb) ltac:(lia)) as DM. pose proof (Z.mod_pos_bound h (2 ^ fb) FP) as MB.
    set (e := h / 2 ^ fb) in *. set (f := h mod 2 ^ fb) in *.
    assert (EV : (mval eb fb h == dy (2 ^ fb + f) (e + emin - 1 - fb))%Q).
    { rewrite mval_ge by lia. fold emin. replace (h + (emin - 1) * 2 ^ fb) with ((e + emin - 1) * 2 ^ fb + f) by lia. rewrite lval_ef by assumption. reflexivity. }
    assert (e1 : 1 <= e) by (apply Z.div_le_lower_bound; lia).
    assert (PV : forall j, 0 <= fb + j -> (dy (2 ^ (fb + j)) (e + emin - 1 - fb) == pow2 (e + emin - 1 + j))%Q).
    { intros j J. unfold dy. rewrite <- pow2_Z, <- pow2_plus by lia. replace (fb + j + (e + emin - 1 - fb)) with (e + emin - 1 + j) by lia. reflexivity. }
    assert (LO : (pow2 (e + emin - 1) <= mval eb fb h)%Q).
    { rewrite EV. pose proof (PV 0 ltac:(lia)) as H0. rewrite !Z.add_0_r in H0. rewrite <- H0. apply dy_le. lia. }
    assert (UP : (mval eb fb h < pow2 (e + emin - 1 + 1))%Q).
    { rewrite EV. rewrite <- (PV 1) by lia. apply dy_lt. lia. }
    destruct (Z_lt_le_dec k (e + emin - 1)) as [B|B].
    + (* above the binade *)
      assert (QK : (q < pow2 (k + 1))%Q) by (eapply Qlt_le_trans; [exact Q2|]; apply pow2_le; subst k; lia).
      assert (KL : (pow2 (k + 1) <= pow2 (e + emin - 1))%Q) by (apply pow2_le; lia).
      destruct (Qlt_le_dec (pow2 (k + 1)) (mval eb fb h)) as [S|S].
      * exists (2 ^ (fb + 1)). right. rewrite D2. rewrite !Qabs_neg by lra. lra.
      * exists (2 ^ (fb + 1)). left. rewrite D2. lra.
    + destruct (Z.eq_dec k (e + emin - 1)) as [K|K].
      * exists (2 ^ fb + f). left. rewrite K. exact EV.
      * exists (2 ^ fb). right. rewrite D1.
        assert (KQ : k = qexp q) by (subst k; lia). rewrite KQ.
        assert (L2 : (pow2 (e + emin - 1 + 1) <= pow2 (qexp q))%Q) by (apply pow2_le; lia).
        rewrite !Qabs_pos by lra. lra.
Qed.

Lemma scaled_dist q k j : (Qabs (q - dy j (k - fb)) == Qabs (q * pow2 (fb - k) - inject_Z j) * pow2 (k - fb))%Q.
Proof.
  assert (E : (q - dy j (k - fb) == (q * pow2 (fb - k) - inject_Z j) * pow2 (k - fb))%Q).
  { unfold dy. assert (X : (pow2 (fb - k) * pow2 (k - fb) == 1)%Q) by (rewrite <- pow2_plus; replace (fb - k + (k - fb)) with 0 by lia; reflexivity).
    transitivity (q * (pow2 (fb - k) * pow2 (k - fb)) - inject_Z j * pow2 (k - fb))%Q; [rewrite X; ring|ring]. }
  rewrite E, Qabs_Qmult, (Qabs_pos (pow2 _)) by (apply Qlt_le_weak, pow2_pos). reflexivity.
Qed.

Lemma code_nearest q h : (0 < q)%Q -> 0 <= h ->
  (Qabs (q - mval eb fb (code eb fb q)) <= Qabs (q - mval eb fb h))%Q /\
  (~ (mval eb fb h == mval eb fb (code eb fb q))%Q -> (Qabs (q - mval eb fb (code eb fb q)) == Qabs (q - mval eb fb h))%Q -> Z.even (code eb fb q) = true).
Proof using FO.
  intros P H. set (k := Z.max (qexp q) emin). pose proof (mval_code q P) as M. fold k in M. set (r := rint (q * pow2 (fb - k))) in *.
  pose proof (pow2_pos (k - fb)) as PP.
  assert (ME : (Qabs (q - mval eb fb (code eb fb q)) == Qabs (q * pow2 (fb - k) - inject_Z r) * pow2 (k - fb))%Q) by (rewrite M; apply scaled_dist).
  destruct (grid q h P H) as [j [G|G]]; fold k in G.
  - assert (MH : (Qabs (q - mval eb fb h) == Qabs (q * pow2 (fb - k) - inject_Z j) * pow2 (k - fb))%Q) by (rewrite G; apply scaled_dist).
    split.
    + rewrite ME, MH. apply Qmult_le_r; [assumption|]. apply rint_nearest.
    + intros N E. rewrite ME, MH in E. apply Qmult_inj_r in E; [|lra].
      assert (Z.even r = true) as ER.
      { apply (rint_tie _ j); [|exact E]. intros EJ. apply N. fold r in EJ. rewrite G, M, EJ. reflexivity. }
      unfold code. cbv zeta. fold emin. fold k. fold r. rewrite Z.even_add, Z.even_mul, ER. destruct FO as [_ _ Hf].
      rewrite (Z.even_pow 2 fb) by lia. rewrite orb_true_r. reflexivity.
  - rewrite scaled_dist in G. assert (L : (Qabs (q - mval eb fb (code eb fb q)) <= Qabs (q * pow2 (fb - k) - inject_Z j) * pow2 (k - fb))%Q).
    { rewrite ME. apply Qmult_le_r; [assumption|]. apply rint_nearest. }
    split; [lra|]. intros _ E. exfalso. lra.
Qed.

Lemma float_mval z : is_float eb fb z -> exists (s : bool) h, 0 <= h < top /\ (z == sgq s (mval eb fb h))%Q.
Proof using FO.
  intros (b & x & B & I & X). destruct (ieee_code_inv eb fb FO b x B I) as (s & g & G & _ & EQ). exists s, g. split; [exact G|]. rewrite <- X. exact EQ.
Qed.
Lemma even_top : Z.even (2 ^ (eb + fb)) = true.
Proof using FO. destruct FO as [_ E F]. rewrite Z.even_pow by lia. reflexivity. Qed.

(** The nearest float, of the two nearest the even one. *)
Lemma rne_near q y : ieee_val eb fb (rne eb fb q) = FinVal y -> is_nearest eb fb q y /\
  (forall z, is_float eb fb z -> ~ (z == y)%Q -> (Qabs (q - z) == Qabs (q - y))%Q -> Z.even (rne eb fb q) = true).
Proof using FO.
 intros I. pose proof (rn_range _ _ _ (rne_rounding eb fb FO) q) as RR.
  assert (FY : is_float eb fb y) by (exists (rne eb fb q), y; repeat split; try lia; assumption || reflexivity).
  pose proof (mval_0 eb fb FO) as M0.
  assert (NN : forall h, 0 <= h -> (0 <= mval eb fb h)%Q) by (intros h H; rewrite <- M0; apply mval_le; [assumption|lia|lia]).
  (* positive numbers *)
  assert (POS : forall q y s, (0 < q)%Q -> ieee_val eb fb (Z.min (code eb fb q) ((2 ^ eb - 1) * 2 ^ fb) + (if s : bool then 2 ^ (eb + fb) else 0)) = FinVal y ->
     (y == sgq s (mval eb fb (code eb fb q)))%Q /\ code eb fb q < (2 ^ eb - 1) * 2 ^ fb).
  { intros q' y' s P I'. pose proof (code_nonneg eb fb FO q' P) as CN.
    destruct (rne_val eb fb FO s (code eb fb q') CN) as [(L & z & Iz & Ez)|(_ & Iz)]; rewrite Iz in I'; [|discriminate].
    injection I' as <-. split; assumption. }
  assert (DIST : forall q s h, (0 < q)%Q -> 0 <= h ->
     (Qabs (q - mval eb fb (code eb fb q)) <= Qabs (q - sgq s (mval eb fb h)))%Q /\
     (~ (sgq s (mval eb fb h) == mval eb fb (code eb fb q))%Q -> (Qabs (q - mval eb fb (code eb fb q)) == Qabs (q - sgq s (mval eb fb h)))%Q -> Z.even (code eb fb q) = true)).
  { intros q' s h P H. destruct s; cbn [sgq]; [|apply code_nearest; assumption].
    destruct (code_nearest q' 0 P ltac:(lia)) as [A B]. pose proof (NN h H) as NH. rewrite M0 in A, B.
    assert (Z0 : (Qabs (q' - 0) <= Qabs (q' - - mval eb fb h))%Q) by (rewrite !Qabs_pos by lra; lra).
    split; [lra|]. intros N E. destruct (Q_dec (mval eb fb h) 0) as [[X|X]|X]; [lra| |].
    - exfalso. rewrite (Qabs_pos (q' - 0)), (Qabs_pos (q' - - mval eb fb h)) in * by lra. lra.
    - apply B; [rewrite X in N; intros X'; apply N; rewrite <- X'; ring|]. rewrite E, X. apply Qabs_wd. ring. }
  destruct (rne_sign q) as [Z0|[P|P]].
  - rewrite (rne_zero eb fb q Z0) in *. destruct (ieee_code eb fb FO false 0 (conj (Z.le_refl 0) (top_pos eb fb FO))) as (w & Iw & Ew).
    cbn [Z.add] in Iw. rewrite Iw in I. injection I as <-. cbn [sgq] in Ew. rewrite M0 in Ew. split; [|intros; reflexivity].
    split; [exact FY|]. intros z _. assert (E : (Qabs (q - w) == 0)%Q) by (rewrite Z0, Ew; reflexivity). rewrite E. apply Qabs_nonneg.
  - rewrite (rne_pos eb fb q P) in *. destruct (POS q y false P I) as [EY L]. cbn [sgq] in EY.
    split; [split; [exact FY|]|].
    + intros z FZ. destruct (float_mval z FZ) as (s & h & H & EZ). destruct (DIST q s h P ltac:(lia)) as [A _]. rewrite EY, EZ. exact A.
    + intros z FZ N E. destruct (float_mval z FZ) as (s & h & H & EZ). destruct (DIST q s h P ltac:(lia)) as [_ B].
      rewrite Z.min_l by lia. rewrite Z.add_0_r. apply B; [rewrite <- EZ, <- EY; exact N|]. rewrite <- EZ, <- EY. symmetry. exact E.
  - rewrite (rne_neg eb fb q P) in *. assert (P' : (0 < - q)%Q) by lra. destruct (POS (- q)%Q y true P' I) as [EY L]. cbn [sgq] in EY.
    assert (FL : forall u v, (Qabs (- q - u) == Qabs (q - v))%Q <-> (Qabs (- q - u) == Qabs (- q - - v))%Q).
    { intros u v. assert (X : (Qabs (q - v) == Qabs (- q - - v))%Q) by (rewrite <- (Qabs_opp (q - v)); apply Qabs_wd; ring). rewrite X. reflexivity. }
    assert (FV : forall v, (Qabs (q - v) == Qabs (- q - - v))%Q) by (intros v; rewrite <- (Qabs_opp (q - v)); apply Qabs_wd; ring).
    assert (EY' : (- y == mval eb fb (code eb fb (- q)))%Q) by lra.
    assert (NEG : forall z s h, (z == sgq s (mval eb fb h))%Q -> (- z == sgq (negb s) (mval eb fb h))%Q) by (intros z s h E; rewrite E; destruct s; cbn [sgq negb]; ring).
    split; [split; [exact FY|]|].
    + intros z FZ. destruct (float_mval z FZ) as (s & h & H & EZ). destruct (DIST (- q)%Q (negb s) h P' ltac:(lia)) as [A _].
      rewrite (FV y), (FV z), EY', (NEG z s h EZ). exact A.
    + intros z FZ N E. destruct (float_mval z FZ) as (s & h & H & EZ). destruct (DIST (- q)%Q (negb s) h P' ltac:(lia)) as [_ B].
      rewrite Z.min_l by lia. rewrite Z.even_add, even_top. rewrite B; [reflexivity| |].
      * rewrite <- (NEG z s h EZ), <- EY'. intros X. apply N. lra.
      * rewrite <- (NEG z s h EZ), <- EY', <- !FV. symmetry. exact E.
Qed.

(** Only numbers at least half a step beyond the largest float become infinite. *)
Lemma rne_overflow q s : ieee_val eb fb (rne eb fb q) = InfVal s ->
  (pow2 (2 ^ (eb - 1)) - pow2 (2 ^ (eb - 1) - fb - 2) <= Qabs q)%Q /\ s = neg_q q.
Proof using FO.
  intros I. pose proof (fb_pos eb fb FO) as FP. pose proof (eb_pow eb fb FO) as [EP EP2]. assert (Hf : 1 <= fb) by (destruct FO; assumption).
  assert (F1 : 2 ^ (fb + 1) = 2 * 2 ^ fb) by (rewrite Z.pow_add_r by lia; ring).
  assert (POS : forall q, (0 < q)%Q -> top <= code eb fb q -> (pow2 (2 ^ (eb - 1)) - pow2 (2 ^ (eb - 1) - fb - 2) <= q)%Q).
  { intros q' P T. unfold code in T. cbv zeta in T. fold emin in T. pose proof (code_low eb fb FO q' P) as [R0 R1]. fold emin in R0, R1.
    set (k := Z.max (qexp q') emin) in *. set (r := rint (q' * pow2 (fb - k))) in *. destruct (qexp_spec q' P) as [Q1 Q2].
    destruct (Z_le_gt_dec (2 ^ (eb - 1)) (qexp q')) as [B|B].
    { assert (pow2 (2 ^ (eb - 1)) <= pow2 (qexp q'))%Q by (apply pow2_le; assumption). pose proof (pow2_pos (2 ^ (eb - 1) - fb - 2)). lra. }
    assert (K : k <= 2 ^ (eb - 1) - 1) by (subst k; unfold emin; lia).
    assert (K2 : k = 2 ^ (eb - 1) - 1 /\ r = 2 ^ (fb + 1)).
    { unfold top in T. rewrite EP in T. unfold emin in T. nia. }
    destruct K2 as [K2 K3]. pose proof (rint_near (q' * pow2 (fb - k))) as N. fold r in N. rewrite K3 in N.
    assert (LB : (inject_Z (2 ^ (fb + 1)) - (1 # 2) <= q' * pow2 (fb - k))%Q).
    { destruct (abs_case (q' * pow2 (fb - k) - inject_Z (2 ^ (fb + 1)))) as [[A1 A2]|[A1 A2]]; rewrite A2 in N; lra. }
    assert (X : (pow2 (fb - k) * pow2 (k - fb) == 1)%Q) by (rewrite <- pow2_plus; replace (fb - k + (k - fb)) with 0 by lia; reflexivity).
    apply Qle_trans with ((inject_Z (2 ^ (fb + 1)) - (1 # 2)) * pow2 (k - fb))%Q.
    - rewrite <- pow2_Z by lia. assert (E1 : (pow2 (fb + 1) * pow2 (k - fb) == pow2 (2 ^ (eb - 1)))%Q) by (rewrite <- pow2_plus, K2; replace (fb + 1 + (2 ^ (eb - 1) - 1 - fb)) with (2 ^ (eb - 1)) by lia; reflexivity).
      assert (E2 : ((1 # 2) * pow2 (k - fb) == pow2 (2 ^ (eb - 1) - fb - 2))%Q).
      { change (1 # 2)%Q with (pow2 (-1)). rewrite <- pow2_plus, K2. replace (-1 + (2 ^ (eb - 1) - 1 - fb)) with (2 ^ (eb - 1) - fb - 2) by lia. reflexivity. }
      rewrite <- E1, <- E2. ring_simplify. lra.
    - apply Qle_trans with (q' * pow2 (fb - k) * pow2 (k - fb))%Q; [apply Qmult_le_r; [apply pow2_pos|exact LB]|].
      rewrite <- Qmult_assoc, X. lra. }
  destruct (rne_sign q) as [Z0|[P|P]].
  - exfalso. rewrite (rne_zero eb fb q Z0) in I. destruct (ieee_code eb fb FO false 0 (conj (Z.le_refl 0) (top_pos eb fb FO))) as (w & Iw & Ew).
    cbn [Z.add] in Iw. rewrite Iw in I. discriminate.
  - rewrite (rne_pos eb fb q P) in I. pose proof (code_nonneg eb fb FO q P) as CN.
    destruct (rne_val eb fb FO false (code eb fb q) CN) as [(L & z & Iz & Ez)|(T & Iz)]; rewrite Iz in I; [discriminate|]. injection I as <-.
    split; [rewrite Qabs_pos by lra; apply POS; assumption|]. unfold neg_q. destruct (Qle_bool 0 q) eqn:E; [reflexivity|].
    exfalso. assert (Qle_bool 0 q = true) by (apply Qle_bool_iff; lra). congruence.
  - rewrite (rne_neg eb fb q P) in I. assert (P' : (0 < - q)%Q) by lra. pose proof (code_nonneg eb fb FO (- q)%Q P') as CN.
    destruct (rne_val eb fb FO true (code eb fb (- q)) CN) as [(L & z & Iz & Ez)|(T & Iz)]; rewrite Iz in I; [discriminate|]. injection I as <-.
    split; [rewrite Qabs_neg by lra; apply POS; assumption|]. unfold neg_q. destruct (Qle_bool 0 q) eqn:E; [|reflexivity].
    apply Qle_bool_iff in E. exfalso. lra.
Qed.
End fmt2.
