(** Rounding to nearest even keeps floats and the order. *)
From Coq Require Import ZArith QArith Qabs Qround Lia Lqa List Bool.
From Verif Require Import Res CInt Bits Traits Cfg Spec SpecFloat FloatOps QPow Core SpecLemmas Arith DecodeProof EncodeProof UOps UAdd Ops
  OpsAdd Room Laws Configs Final1 Conv1 Conv2 Conv3 Conv4 Conv5.
Open Scope Z_scope.

Lemma qexp_spec q : (0 < q)%Q -> (pow2 (qexp q) <= q)%Q /\ (q < pow2 (qexp q + 1))%Q.
Proof.
  intros P. destruct q as [n d]. assert (N : 0 < n) by (unfold Qlt in P; cbn in P; lia). unfold qexp. cbn [Qnum Qden].
  set (e := Z.log2 n - Z.log2 (Z.pos d)).
  pose proof (Z.log2_spec n N) as [N1 N2]. pose proof (Z.log2_spec (Z.pos d) ltac:(lia)) as [D1 D2].
  pose proof (Z.log2_nonneg n) as LN. pose proof (Z.log2_nonneg (Z.pos d)) as LD.
  rewrite Z.pow_succ_r in N2, D2 by lia. set (a := Z.log2 n) in *. set (b := Z.log2 (Z.pos d)) in *.
  assert (QE : (n # d == inject_Z n / inject_Z (Z.pos d))%Q) by (rewrite (Qmake_Qdiv n d); reflexivity).
  assert (DP : (0 < inject_Z (Z.pos d))%Q) by reflexivity.
  assert (GE : forall x, (pow2 x <= n # d)%Q <-> (pow2 x * inject_Z (Z.pos d) <= inject_Z n)%Q).
  { intros x. rewrite QE. split; intros H.
    - apply (Qmult_le_compat_r _ _ (inject_Z (Z.pos d))) in H; [|lra]. rewrite (Qmult_comm (inject_Z n / _)), Qmult_div_r in H by lra. exact H.
    - apply Qle_shift_div_l; [exact DP|exact H]. }
  assert (LT : forall x, (n # d < pow2 x)%Q <-> (inject_Z n < pow2 x * inject_Z (Z.pos d))%Q).
  { intros x. specialize (GE x). split; intros H; apply Qnot_le_lt; intros K; apply GE in K; lra. }
  assert (NB : (pow2 a <= inject_Z n)%Q /\ (inject_Z n < 2 * pow2 a)%Q).
  { rewrite pow2_Z by lia. split; [apply inj_le; lia|]. change 2%Q with (inject_Z 2). rewrite <- inject_Z_mult. apply inj_lt. lia. }
  assert (DB : (pow2 b <= inject_Z (Z.pos d))%Q /\ (inject_Z (Z.pos d) < 2 * pow2 b)%Q).
  { rewrite pow2_Z by lia. split; [apply inj_le; lia|]. change 2%Q with (inject_Z 2). rewrite <- inject_Z_mult. apply inj_lt. lia. }
  assert (EA : (pow2 a == pow2 e * pow2 b)%Q) by (rewrite <- pow2_plus; unfold e; replace (a - b + b) with a by lia; reflexivity).
  pose proof (pow2_pos e) as EP. pose proof (pow2_pos b) as BP.
  assert (E1 : (pow2 (e - 1) * 2 == pow2 e)%Q) by (change 2%Q with (pow2 1); rewrite <- pow2_plus; replace (e - 1 + 1) with e by lia; reflexivity).
  assert (E2 : (pow2 (e + 1) == pow2 e * 2)%Q) by (rewrite pow2_plus; reflexivity).
  assert (T : (n * 2 ^ Z.max 0 (- e) < Z.pos d * 2 ^ Z.max 0 e) <-> (inject_Z n < pow2 e * inject_Z (Z.pos d))%Q).
  { destruct (Z_le_gt_dec 0 e) as [S|S].
    - rewrite (Z.max_l 0 (- e)), (Z.max_r 0 e) by lia. rewrite pow2_Z by lia. rewrite <- inject_Z_mult. rewrite <- Zlt_Qlt. lia.
    - rewrite (Z.max_r 0 (- e)), (Z.max_l 0 e) by lia. change (2 ^ 0) with 1. rewrite Z.mul_1_r.
      assert (I : (pow2 e * inject_Z (2 ^ (- e)) == 1)%Q) by (rewrite <- pow2_Z, <- pow2_plus by lia; replace (e + - e) with 0 by lia; reflexivity).
      rewrite Zlt_Qlt, inject_Z_mult. split; intros H.
      + assert (H' : (pow2 e * (inject_Z n * inject_Z (2 ^ (- e))) < pow2 e * inject_Z (Z.pos d))%Q) by (apply Qmult_lt_l; assumption).
        setoid_replace (pow2 e * (inject_Z n * inject_Z (2 ^ (- e))))%Q with (inject_Z n * (pow2 e * inject_Z (2 ^ (- e))))%Q in H' by ring.
        rewrite I in H'. lra.
      + apply (Qmult_lt_l _ _ (pow2 e)); [assumption|].
        setoid_replace (pow2 e * (inject_Z n * inject_Z (2 ^ (- e))))%Q with (inject_Z n * (pow2 e * inject_Z (2 ^ (- e))))%Q by ring.
        rewrite I. lra. }
  destruct (Z.ltb_spec (n * 2 ^ Z.max 0 (- e)) (Z.pos d * 2 ^ Z.max 0 e)) as [L|L].
  - apply T in L. split.
    + apply GE. assert (pow2 (e - 1) * inject_Z (Z.pos d) <= pow2 (e - 1) * (2 * pow2 b))%Q by (apply Qmult_le_l; [apply pow2_pos|lra]).
      setoid_replace (pow2 (e - 1) * (2 * pow2 b))%Q with (pow2 (e - 1) * 2 * pow2 b)%Q in H by ring. rewrite E1, <- EA in H. lra.
    + replace (e - 1 + 1) with e by lia. apply LT. exact L.
  - assert (L' : (pow2 e * inject_Z (Z.pos d) <= inject_Z n)%Q) by (apply Qnot_lt_le; intros K; apply T in K; lia).
    split; [apply GE; exact L'|]. apply LT. rewrite E2.
    assert (pow2 e * 2 * pow2 b <= pow2 e * 2 * inject_Z (Z.pos d))%Q by (apply Qmult_le_l; lra).
    setoid_replace (pow2 e * 2 * pow2 b)%Q with (2 * (pow2 e * pow2 b))%Q in H by ring. rewrite <- EA in H. lra.
Qed.

Lemma rint_int z x : (x == inject_Z z)%Q -> rint x = z.
Proof.
  intros E. unfold rint. assert (F : Qfloor x = z) by (rewrite (Qfloor_comp _ _ E); apply Qfloor_Z). rewrite F.
  assert (C : ((x - inject_Z z) ?= 1 # 2)%Q = Lt) by (rewrite <- Qlt_alt; lra).
  rewrite C. reflexivity.
Qed.
(** The rounded integer is at distance at most 1/2. *)
Lemma rint_near x : (Qabs (x - inject_Z (rint x)) <= 1 # 2)%Q.
Proof.
  unfold rint. pose proof (Qfloor_le x) as L. pose proof (Qlt_floor x) as U.
  set (f := Qfloor x) in *. rewrite inject_Z_plus in U. change (inject_Z 1) with 1%Q in U.
  destruct (Qcompare_spec (x - inject_Z f) (1 # 2)) as [E|E|E].
  - destruct (Z.even f); [rewrite Qabs_pos by lra; lra|]. rewrite inject_Z_plus. change (inject_Z 1) with 1%Q. rewrite Qabs_neg by lra. lra.
  - rewrite Qabs_pos by lra. lra.
  - rewrite inject_Z_plus. change (inject_Z 1) with 1%Q. rewrite Qabs_neg by lra. lra.
Qed.
Lemma rint_mono x y : (x <= y)%Q -> rint x <= rint y.
Proof.
  intros L. unfold rint. pose proof (Qfloor_resp_le x y L) as FL.
  pose proof (Qfloor_le x) as L1. pose proof (Qlt_floor x) as U1. pose proof (Qfloor_le y) as L2. pose proof (Qlt_floor y) as U2.
  set (f := Qfloor x) in *. set (g := Qfloor y) in *. rewrite inject_Z_plus in U1, U2. change (inject_Z 1) with 1%Q in U1, U2.
  destruct (Z.eq_dec f g) as [E|N].
  - rewrite E in *. destruct (Qcompare_spec (x - inject_Z g) (1 # 2)), (Qcompare_spec (y - inject_Z g) (1 # 2)); destruct (Z.even g); try lia; lra.
  - destruct (Qcompare_spec (x - inject_Z f) (1 # 2)), (Qcompare_spec (y - inject_Z g) (1 # 2)); destruct (Z.even g), (Z.even f); lia.
Qed.
Lemma rint_comp x y : (x == y)%Q -> rint x = rint y.
Proof. intros E. apply Z.le_antisymm; apply rint_mono; lra. Qed.
Lemma rint_le_int x z : (x <= inject_Z z)%Q -> rint x <= z.
Proof. intros L. rewrite <- (rint_int z (inject_Z z)) by reflexivity. apply rint_mono. exact L. Qed.
Lemma rint_ge_int x z : (inject_Z z <= x)%Q -> z <= rint x.
Proof. intros L. rewrite <- (rint_int z (inject_Z z)) by reflexivity. apply rint_mono. exact L. Qed.

Section fmt.
Variables eb fb : Z.
Hypothesis FO : fmt_ok eb fb.
Let emin := 2 - 2 ^ (eb - 1).
Let top := (2 ^ eb - 1) * 2 ^ fb.

(** Value of the pattern [g] of a positive number. *)
Definition mval (g : Z) : Q := if g <? 2 ^ fb then dy g (emin - fb) else lval fb (g + (emin - 1) * 2 ^ fb).
Definition code (q : Q) : Z :=
  let k := Z.max (qexp q) emin in (k - emin) * 2 ^ fb + rint (q * pow2 (fb - k)).

Lemma fb_pos : 0 < 2 ^ fb. Proof using FO. destruct FO. apply Z.pow_pos_nonneg; lia. Qed.
Lemma eb_pow : 2 ^ eb = 2 * 2 ^ (eb - 1) /\ 2 <= 2 ^ (eb - 1).
Proof using FO.
  destruct FO as [_ [E1 E2] _]. split; [rewrite <- Z.pow_succ_r by lia; f_equal; lia|].
  assert (2 ^ 1 <= 2 ^ (eb - 1)) by (apply pow2_mono; lia). change (2 ^ 1) with 2 in *. lia.
Qed.
Lemma top_eq : 2 ^ (eb + fb) = top + 2 ^ fb.
Proof using FO. destruct FO as [_ [E1 E2] Hf]. unfold top. rewrite Z.pow_add_r by lia. ring. Qed.

Lemma ieee_code (s : bool) g : 0 <= g < top ->
  exists q, ieee_val eb fb (g + (if s then 2 ^ (eb + fb) else 0)) = FinVal q /\ (q == sgq s (mval g))%Q.
Proof using FO.
  intros G. pose proof fb_pos as P. unfold mval. destruct (Z.ltb_spec g (2 ^ fb)).
  - destruct (ieee_sub eb fb FO s g ltac:(lia)) as (q & I & Q). exists q. split.
    + rewrite <- I. f_equal. unfold fbits. destruct s; ring.
    + rewrite Q. replace (1 - (2 ^ (eb - 1) - 1) - fb) with (emin - fb) by (unfold emin; lia). reflexivity.
  - pose proof (Z.div_mod g (2 ^ fb) ltac:(lia)) as DM. pose proof (Z.mod_pos_bound g (2 ^ fb) P) as MB.
    assert (D1 : 1 <= g / 2 ^ fb) by (apply Z.div_le_lower_bound; lia).
    assert (D2 : g / 2 ^ fb < 2 ^ eb - 1) by (apply Z.div_lt_upper_bound; unfold top in G; lia).
    destruct (ieee_normal eb fb FO s (g / 2 ^ fb) (g mod 2 ^ fb) ltac:(lia) MB) as (q & I & Q). exists q. split.
    + rewrite <- I. f_equal. unfold fbits. destruct s; lia.
    + rewrite Q. replace ((g / 2 ^ fb - (2 ^ (eb - 1) - 1)) * 2 ^ fb + g mod 2 ^ fb) with (g + (emin - 1) * 2 ^ fb) by (unfold emin; lia). reflexivity.
Qed.
Lemma ieee_codetop (s : bool) : ieee_val eb fb (top + (if s then 2 ^ (eb + fb) else 0)) = InfVal s.
Proof using FO.
  pose proof fb_pos as P. pose proof (ieee_top eb fb s 0 FO ltac:(lia)) as T. cbn [Z.eqb] in T. rewrite <- T. f_equal.
  unfold fbits, top. destruct s; ring.
Qed.
(** Every finite pattern has this form. *)
Lemma ieee_code_inv b q : 0 <= b < 2 ^ (eb + fb + 1) -> ieee_val eb fb b = FinVal q ->
  exists (s : bool) g, 0 <= g < top /\ b = g + (if s then 2 ^ (eb + fb) else 0) /\ (q == sgq s (mval g))%Q.
Proof using FO.
  intros B I. pose proof fb_pos as P. destruct (ieee_cases eb fb FO b B) as (Bf & Be & C). rewrite I in C.
  assert (G : 0 <= fexp_of eb fb b * 2 ^ fb + ffrac_of fb b < top).
  { destruct C as [C _]. assert (fexp_of eb fb b <= 2 ^ eb - 2) by lia. unfold top. nia. }
  pose proof (fbits_inv eb fb b FO B) as E.
  exists (fsign_of eb fb b), (fexp_of eb fb b * 2 ^ fb + ffrac_of fb b). split; [exact G|].
  assert (EB : b = fexp_of eb fb b * 2 ^ fb + ffrac_of fb b + (if fsign_of eb fb b then 2 ^ (eb + fb) else 0)).
  { rewrite <- E at 1. unfold fbits. destruct (fsign_of eb fb b); ring. }
  split; [exact EB|].
  destruct (ieee_code (fsign_of eb fb b) _ G) as (q' & I' & Q'). rewrite <- EB, I in I'. injection I' as <-. exact Q'.
Qed.

Lemma mval_ge g : 2 ^ fb <= g -> mval g = lval fb (g + (emin - 1) * 2 ^ fb).
Proof. intros G. unfold mval. destruct (Z.ltb_spec g (2 ^ fb)); [lia|reflexivity]. Qed.
Lemma mval_low g : 0 <= g <= 2 ^ fb -> (mval g == dy g (emin - fb))%Q.
Proof using FO.
  intros G. unfold mval. pose proof fb_pos. destruct FO as [_ _ Hf]. destruct (Z.ltb_spec g (2 ^ fb)); [reflexivity|].
  assert (g = 2 ^ fb) as -> by lia. replace (2 ^ fb + (emin - 1) * 2 ^ fb) with (emin * 2 ^ fb + 0) by ring.
  rewrite lval_ef by lia. rewrite Z.add_0_r. reflexivity.
Qed.
Lemma mval_lt g h : 0 <= g -> g < h -> (mval g < mval h)%Q.
Proof using FO.
  intros G L. pose proof fb_pos. destruct FO as [_ _ Hf].
  destruct (Z_lt_le_dec (2 ^ fb) h) as [B|B].
  - destruct (Z_lt_le_dec g (2 ^ fb)) as [A|A].
    + rewrite (mval_ge h) by lia. rewrite (mval_low g) by lia.
      assert (dy g (emin - fb) < dy (2 ^ fb) (emin - fb))%Q by (apply dy_lt; lia).
      assert (dy (2 ^ fb) (emin - fb) == lval fb (emin * 2 ^ fb))%Q.
      { rewrite <- (Z.add_0_r (emin * 2 ^ fb)), lval_ef by lia. rewrite Z.add_0_r. reflexivity. }
      assert (lval fb (emin * 2 ^ fb) < lval fb (h + (emin - 1) * 2 ^ fb))%Q by (apply lval_lt; lia). lra.
    + rewrite !mval_ge by lia. apply lval_lt; lia.
  - rewrite !mval_low by lia. apply dy_lt. lia.
Qed.
Lemma mval_le g h : 0 <= g -> g <= h -> (mval g <= mval h)%Q.
Proof using FO. intros G L. destruct (Z.eq_dec g h) as [->|N]; [lra|]. pose proof (mval_lt g h). apply Qlt_le_weak. apply H; lia. Qed.
Lemma mval_0 : (mval 0 == 0)%Q.
Proof using FO. pose proof fb_pos. rewrite mval_low by lia. apply dy_0. Qed.
Lemma mval_pos g : 0 < g -> (0 < mval g)%Q.
Proof using FO. intros G. rewrite <- mval_0. apply mval_lt; lia. Qed.

Lemma code_scaled q k : qexp q = k -> (0 < q)%Q -> (q * pow2 (fb - k) < inject_Z (2 ^ (fb + 1)))%Q /\ (inject_Z (2 ^ fb) <= q * pow2 (fb - k))%Q.
Proof using FO.
  intros <- P. destruct (qexp_spec q P) as [A B]. destruct FO as [_ _ Hf]. pose proof (pow2_pos (fb - qexp q)) as PP.
  rewrite <- !pow2_Z by lia. split.
  - assert (E : (pow2 (fb + 1) == pow2 (qexp q + 1) * pow2 (fb - qexp q))%Q) by (rewrite <- pow2_plus; replace (qexp q + 1 + (fb - qexp q)) with (fb + 1) by lia; reflexivity).
    rewrite E. apply Qmult_lt_r; assumption.
  - assert (E : (pow2 fb == pow2 (qexp q) * pow2 (fb - qexp q))%Q) by (rewrite <- pow2_plus; replace (qexp q + (fb - qexp q)) with fb by lia; reflexivity).
    rewrite E. apply Qmult_le_r; assumption.
Qed.
Lemma qexp_mono p q : (0 < p)%Q -> (p <= q)%Q -> qexp p <= qexp q.
Proof.
  intros P L. destruct (qexp_spec p P) as [A _]. destruct (qexp_spec q ltac:(lra)) as [_ B].
  assert (qexp p < qexp q + 1) by (apply pow2_lt_inv; lra). lia.
Qed.
Lemma code_low q : (0 < q)%Q -> 0 <= rint (q * pow2 (fb - Z.max (qexp q) emin)) <= 2 ^ (fb + 1).
Proof using FO.
  intros P. pose proof (pow2_pos (fb - Z.max (qexp q) emin)) as PP. split.
  - apply rint_ge_int. change (inject_Z 0) with 0%Q. rewrite <- (Qmult_0_l (pow2 (fb - Z.max (qexp q) emin))). apply Qmult_le_r; [assumption|lra].
  - apply rint_le_int. destruct (code_scaled q (qexp q) eq_refl P) as [A _].
    assert (pow2 (fb - Z.max (qexp q) emin) <= pow2 (fb - qexp q))%Q by (apply pow2_le; lia).
    assert (q * pow2 (fb - Z.max (qexp q) emin) <= q * pow2 (fb - qexp q))%Q by (apply Qmult_le_l; assumption). lra.
Qed.
Lemma code_mono p q : (0 < p)%Q -> (p <= q)%Q -> code p <= code q.
Proof using FO.
  intros P L. pose proof (qexp_mono p q P L) as E. unfold code. destruct FO as [_ _ Hf]. pose proof fb_pos as FP.
  assert (F1 : 2 ^ (fb + 1) = 2 * 2 ^ fb) by (rewrite Z.pow_add_r by lia; ring).
  destruct (code_low p P) as [_ U].
  set (k := Z.max (qexp p) emin) in *. set (k' := Z.max (qexp q) emin) in *.
  destruct (Z.eq_dec k k') as [<-|N].
  - assert (rint (p * pow2 (fb - k)) <= rint (q * pow2 (fb - k))) by (apply rint_mono, Qmult_le_r; [apply pow2_pos|assumption]). lia.
  - assert (KK : k + 1 <= k') by (unfold k, k' in *; lia). assert (K' : k' = qexp q) by (unfold k, k' in *; lia).
    destruct (code_scaled q k' (eq_sym K') ltac:(lra)) as [_ B]. apply rint_ge_int in B. nia.
Qed.
Lemma code_exact g : 0 < g -> forall q, (q == mval g)%Q -> code q = g.
Proof using FO.
  intros G q Q. pose proof (mval_pos g G) as MP. assert (QP : (0 < q)%Q) by lra. pose proof fb_pos as FP. destruct FO as [_ _ Hf].
  unfold code. destruct (qexp_spec q QP) as [E1 E2].
  destruct (Z_lt_le_dec g (2 ^ fb)) as [A|A].
  - assert (QB : (q < pow2 emin)%Q).
    { rewrite Q. assert (mval g < mval (2 ^ fb))%Q by (apply mval_lt; lia). rewrite (mval_low (2 ^ fb)) in H by lia.
      assert (dy (2 ^ fb) (emin - fb) == pow2 emin)%Q.
      { unfold dy. rewrite <- pow2_Z, <- pow2_plus by lia. replace (fb + (emin - fb)) with emin by lia. reflexivity. } lra. }
    assert (qexp q < emin) by (apply pow2_lt_inv; lra). rewrite Z.max_r by lia.
    rewrite (rint_int g); [lia|]. rewrite Q, mval_low by lia. unfold dy.
    rewrite <- Qmult_assoc, <- pow2_plus. replace (emin - fb + (fb - emin)) with 0 by lia. rewrite pow2_0. ring.
  - pose proof (Z.div_mod g (2 ^ fb) ltac:(lia)) as DM. pose proof (Z.mod_pos_bound g (2 ^ fb) FP) as MB.
    set (e := g / 2 ^ fb) in *. set (f := g mod 2 ^ fb) in *.
    assert (EV : (q == dy (2 ^ fb + f) (e + emin - 1 - fb))%Q).
    { rewrite Q, mval_ge by lia. replace (g + (emin - 1) * 2 ^ fb) with ((e + emin - 1) * 2 ^ fb + f) by lia. rewrite lval_ef by assumption. reflexivity. }
    assert (X : scale q (e + emin - 1)).
    { assert (PV : forall j, (dy (2 ^ (fb + j)) (e + emin - 1 - fb) == pow2 (e + emin - 1 + j))%Q \/ fb + j < 0).
      { intros j. destruct (Z_lt_le_dec (fb + j) 0); [right; assumption|left]. unfold dy. rewrite <- pow2_Z, <- pow2_plus by lia.
        replace (fb + j + (e + emin - 1 - fb)) with (e + emin - 1 + j) by lia. reflexivity. }
      unfold scale. rewrite (Qabs_pos q) by lra. rewrite EV. split.
      - destruct (PV 0) as [H|]; [|lia]. rewrite !Z.add_0_r in H. rewrite <- H. apply dy_le. lia.
      - destruct (PV 1) as [H|]; [|lia]. rewrite <- H. apply dy_lt. rewrite Z.pow_add_r by lia. change (2 ^ 1) with 2. lia. }
    assert (XE : qexp q = e + emin - 1).
    { apply (scale_unique q); [|exact X]. unfold scale. rewrite Qabs_pos by lra. split; assumption. }
    assert (e1 : 1 <= e) by (apply Z.div_le_lower_bound; lia).
    rewrite XE, Z.max_l by lia. rewrite (rint_int (2 ^ fb + f)); [lia|].
    rewrite EV. unfold dy. rewrite <- Qmult_assoc, <- pow2_plus. replace (e + emin - 1 - fb + (fb - (e + emin - 1))) with 0 by lia. rewrite pow2_0. ring.
Qed.
Lemma code_nonneg q : (0 < q)%Q -> 0 <= code q.
Proof using FO. intros P. pose proof (code_low q P). unfold code. pose proof fb_pos. nia. Qed.
Lemma code_comp p q : (p == q)%Q -> (0 < p)%Q -> code p = code q.
Proof using FO. intros E P. apply Z.le_antisymm; apply code_mono; lra. Qed.

Lemma rne_pos q : (0 < q)%Q -> rne eb fb q = Z.min (code q) top + 0.
Proof. intros P. unfold rne, rne_mag. destruct q as [n d]. unfold Qlt in P. cbn [Qnum Qden] in *. destruct n; [lia| |lia]. rewrite Z.add_0_r. reflexivity. Qed.
Lemma rne_neg q : (q < 0)%Q -> rne eb fb q = Z.min (code (- q)) top + 2 ^ (eb + fb).
Proof. intros P. unfold rne, rne_mag. destruct q as [n d]. unfold Qlt in P. cbn [Qnum Qden] in *. destruct n; [lia|lia|]. reflexivity. Qed.
Lemma rne_zero q : (q == 0)%Q -> rne eb fb q = 0.
Proof. intros P. unfold rne. destruct q as [n d]. unfold Qeq in P. cbn [Qnum Qden] in *. destruct n; [reflexivity|lia|lia]. Qed.

(** Value of the rounded number. *)
Lemma rne_val (s : bool) g : 0 <= g ->
  (g < top /\ exists q, ieee_val eb fb (Z.min g top + (if s then 2 ^ (eb + fb) else 0)) = FinVal q /\ (q == sgq s (mval g))%Q) \/
  (top <= g /\ ieee_val eb fb (Z.min g top + (if s then 2 ^ (eb + fb) else 0)) = InfVal s).
Proof using FO.
  intros G. destruct (Z_lt_le_dec g top) as [L|L].
  - left. split; [assumption|]. rewrite Z.min_l by lia. apply ieee_code. lia.
  - right. split; [assumption|]. rewrite Z.min_r by lia. apply ieee_codetop.
Qed.
Lemma top_pos : 0 < top.
Proof using FO. pose proof fb_pos. destruct eb_pow. unfold top. nia. Qed.

Lemma rne_sign q : (q == 0)%Q \/ (0 < q)%Q \/ (q < 0)%Q.
Proof. destruct (Q_dec q 0) as [[H|H]|H]; auto. Qed.

Theorem rne_rounding : rounding eb fb (rne eb fb).
Proof using FO.
  pose proof fb_pos as FP. pose proof top_pos as TP. pose proof top_eq as TE. destruct FO as [W [E1 E2] Hf].
  assert (D : 2 ^ (eb + fb + 1) = 2 * 2 ^ (eb + fb)) by (rewrite Z.pow_add_r by lia; ring).
  split.
  - intros q. destruct (rne_sign q) as [H|[H|H]].
    + rewrite rne_zero by assumption. lia.
    + rewrite rne_pos by assumption. pose proof (code_nonneg q H). lia.
    + rewrite rne_neg by assumption. pose proof (code_nonneg (- q) ltac:(lra)). lia.
  - intros q (b & x & B & I & X). destruct (ieee_code_inv b x B I) as (s & g & G & EB & EQ).
    destruct (Z.eq_dec g 0) as [->|NZ].
    + assert (Z0 : (q == 0)%Q) by (rewrite <- X, EQ; destruct s; cbn [sgq]; rewrite mval_0; reflexivity).
      rewrite rne_zero by assumption. destruct (ieee_code false 0 ltac:(lia)) as (y & Iy & Ey). exists y. split; [exact Iy|].
      rewrite Ey, Z0. cbn [sgq]. apply mval_0.
    + pose proof (mval_pos g ltac:(lia)) as MP. exists x. split; [|exact X]. rewrite <- I, EB. f_equal. destruct s; cbn [sgq] in EQ.
      * assert (N : (q < 0)%Q) by lra. rewrite rne_neg by assumption. rewrite (code_exact g) by (lia || lra). lia.
      * assert (N : (0 < q)%Q) by lra. rewrite rne_pos by assumption. rewrite (code_exact g) by (lia || lra). lia.
  - intros p q L.
    destruct (rne_sign p) as [P|[P|P]]; destruct (rne_sign q) as [Q|[Q|Q]]; try lra.
    + rewrite !rne_zero by assumption. destruct (ieee_code false 0 ltac:(lia)) as (y & Iy & Ey). cbn [Z.add] in Iy. rewrite Iy. cbn [ext_le]. lra.
    + rewrite (rne_zero p), (rne_pos q) by assumption. destruct (ieee_code false 0 ltac:(lia)) as (y & Iy & Ey). cbn [Z.add] in Iy. rewrite Iy.
      pose proof (code_nonneg q Q) as CN. destruct (rne_val false (code q) CN) as [(_ & z & Iz & Ez)|(_ & Iz)]; rewrite Iz; cbn [ext_le]; [|exact I].
      rewrite Ey, Ez. cbn [sgq]. apply mval_le; lia.
    + rewrite (rne_pos p), (rne_pos q) by assumption. pose proof (code_mono p q P L) as CM. pose proof (code_nonneg p P) as CN.
      destruct (rne_val false (code p) CN) as [(_ & y & Iy & Ey)|(T1 & Iy)]; rewrite Iy;
      (destruct (rne_val false (code q) ltac:(lia)) as [(T2 & z & Iz & Ez)|(_ & Iz)]; rewrite Iz; cbn [ext_le]); try exact I; [|lia].
      rewrite Ey, Ez. cbn [sgq]. apply mval_le; lia.
    + rewrite (rne_neg p), (rne_zero q) by assumption. destruct (ieee_code false 0 ltac:(lia)) as (y & Iy & Ey). cbn [Z.add] in Iy. rewrite Iy.
      pose proof (code_nonneg (- p) ltac:(lra)) as CN. destruct (rne_val true (code (- p)) CN) as [(_ & z & Iz & Ez)|(_ & Iz)]; rewrite Iz; cbn [ext_le]; [|exact I].
      rewrite Ey, Ez. cbn [sgq]. rewrite mval_0. pose proof (mval_le 0 (code (- p))). rewrite mval_0 in H. assert (0 <= mval (code (- p)))%Q by (apply H; lia). lra.
    + rewrite (rne_neg p), (rne_pos q) by assumption.
      pose proof (code_nonneg (- p) ltac:(lra)) as CP. pose proof (code_nonneg q Q) as CQ.
      pose proof (mval_le 0 (code (- p))) as M1. pose proof (mval_le 0 (code q)) as M2. rewrite mval_0 in M1, M2.
      assert (0 <= mval (code (- p)))%Q by (apply M1; lia). assert (0 <= mval (code q))%Q by (apply M2; lia).
      destruct (rne_val true (code (- p)) CP) as [(_ & y & Iy & Ey)|(_ & Iy)]; rewrite Iy;
      (destruct (rne_val false (code q) CQ) as [(_ & z & Iz & Ez)|(_ & Iz)]; rewrite Iz; cbn [ext_le]); try exact I.
      rewrite Ey, Ez. cbn [sgq]. lra.
    + rewrite (rne_neg p), (rne_neg q) by assumption. pose proof (code_mono (- q) (- p) ltac:(lra) ltac:(lra)) as CM.
      pose proof (code_nonneg (- q) ltac:(lra)) as CN.
      destruct (rne_val true (code (- p)) ltac:(lia)) as [(T1 & y & Iy & Ey)|(T1 & Iy)]; rewrite Iy;
      (destruct (rne_val true (code (- q)) CN) as [(T2 & z & Iz & Ez)|(T2 & Iz)]; rewrite Iz; cbn [ext_le]); try exact I; [|lia].
      rewrite Ey, Ez. cbn [sgq]. assert (mval (code (- q)) <= mval (code (- p)))%Q by (apply mval_le; lia). lra.
Qed.
End fmt.
