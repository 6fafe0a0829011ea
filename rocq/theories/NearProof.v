(** Rounded squares of rounded differences. *)
From Coq Require Import ZArith QArith Qabs Qround Bool List Lia Lqa.
From Verif Require Import Res CInt Cfg Spec SpecFloat FloatOps Dump SpecDump QPow Arith SpecLemmas EncodeProof UOps FloatProof PositFProof PositFProof2 SoftProof DumpProof DumpProof2 DumpProof6.
Import ListNotations.
Open Scope Z_scope.

Notation isf := (is_float 11 52).

Lemma isf_dy m j : 0 <= m < 2 ^ 53 -> -1074 <= j <= 900 -> isf (dy m j).
Proof.
  intros M J. apply (is_float_dy 11 52 fmt_d); [change (52 + 1) with 53; lia|cbn; lia|]. change (2 ^ (11 - 1)) with 1024.
  apply Qlt_le_trans with (dy (2 ^ 53) j); [apply dy_lt; lia|]. unfold dy. rewrite <- pow2_Z by lia. rewrite <- pow2_plus. apply pow2_le. lia.
Qed.
Lemma dy_two m j : (dy (2 * m) j == dy m (j + 1))%Q.
Proof. replace (2 * m) with (m * 2 ^ 1) by lia. apply dy_pow. lia. Qed.
Lemma isf_even m j : 0 <= m < 2 ^ 53 -> -1074 <= j <= 899 -> isf (dy (2 * m) j).
Proof. intros M J. apply (is_float_comp 11 52 (dy m (j + 1))); [symmetry; apply dy_two|apply isf_dy; lia]. Qed.
Lemma isf_pow2 j : -1074 <= j <= 1023 -> isf (pow2 j).
Proof. intros J. apply (is_float_pow2 11 52 fmt_d). cbn. lia. Qed.
Lemma pow2_dbl a : (pow2 (a + 1) == 2 * pow2 a)%Q.
Proof. rewrite pow2_plus. change (pow2 1) with 2%Q. ring. Qed.

(** The scale of a positive number. *)
Lemma scale_of a lo n : (pow2 lo <= a)%Q -> (a < pow2 (lo + Z.of_nat n))%Q -> exists e, lo <= e < lo + Z.of_nat n /\ (pow2 e <= a)%Q /\ (a < pow2 (e + 1))%Q.
Proof.
  revert lo. induction n as [|n IH]; intros lo A B; [rewrite Z.add_0_r in B; lra|]. destruct (Qlt_le_dec a (pow2 (lo + 1))) as [L|L]; [exists lo; split; [lia|auto]|].
  destruct (IH (lo + 1) L) as (e & E1 & E2); [replace (lo + 1 + Z.of_nat n) with (lo + Z.of_nat (S n)) by lia; exact B|]. exists e. split; [lia|exact E2].
Qed.
Lemma scale_at a lo hi : lo <= hi -> (pow2 lo <= a)%Q -> (a <= pow2 hi)%Q -> exists e, lo <= e <= hi /\ (pow2 e <= a)%Q /\ (a < pow2 (e + 1))%Q.
Proof.
  intros L A B. destruct (scale_of a lo (Z.to_nat (hi - lo + 1)) A) as (e & E1 & E2).
  - eapply Qle_lt_trans; [exact B|]. apply pow2_lt. lia.
  - exists e. split; [lia|exact E2].
Qed.
(** The least multiple of 2^j from [a] on. *)
Lemma upper a j : exists m, (a <= dy m j)%Q /\ (dy m j < a + pow2 j)%Q.
Proof.
  pose proof (pow2_pos j) as P. exists (Qceiling (a / pow2 j)). pose proof (Qle_ceiling (a / pow2 j)) as A. pose proof (Qceiling_lt (a / pow2 j)) as B.
  assert (E : (a / pow2 j * pow2 j == a)%Q) by (field; apply pow2_nz). unfold dy. set (y := (a / pow2 j)%Q) in *.
  assert (B' : (inject_Z (Qceiling y) - 1 < y)%Q) by (unfold Zminus in B; rewrite inject_Z_plus in B; exact B). split; nra.
Qed.
Lemma dy_pow2' f j : 0 <= f -> (dy (2 ^ f) j == pow2 (j + f))%Q.
Proof. intros F. unfold dy. rewrite <- pow2_Z by lia. rewrite <- pow2_plus, Z.add_comm. reflexivity. Qed.
Lemma dy_succ m j : (dy (m + 1) j == dy m j + pow2 j)%Q.
Proof. unfold dy. rewrite inject_Z_plus. change (inject_Z 1) with 1%Q. ring. Qed.

(** Two floats between numbers that are not too close. *)
Lemma between49 a b : (pow2 (-600) <= a)%Q -> (a <= pow2 600)%Q -> (a * (1 + pow2 (-48)) <= b)%Q ->
  exists m j, 2 ^ 49 <= m <= 2 ^ 50 /\ -650 <= j <= 552 /\ (a <= dy m j)%Q /\ (dy m j <= 2 * a)%Q /\ (dy (m + 1) j <= b)%Q.
Proof.
  intros A B C. destruct (scale_at a (-600) 600 ltac:(lia) A B) as (e & E & E1 & E2). destruct (upper a (e - 49)) as (m & M1 & M2). exists m, (e - 49).
  assert (P : (pow2 (e - 49) == pow2 e * pow2 (-49))%Q) by (replace (e - 49) with (e + -49) by lia; apply pow2_plus).
  pose proof (pow2_pos (e - 49)) as PP.
  assert (K0 : (pow2 (e - 49) <= a)%Q) by (apply Qle_trans with (pow2 e); [apply pow2_le; lia|exact E1]).
  split; [split|split; [lia|split; [exact M1|split; [lra|]]]].
  - apply (dy_le_inv _ _ (e - 49)). rewrite dy_pow2' by lia. replace (e - 49 + 49) with e by lia. lra.
  - assert (m < 2 ^ 50 + 1); [|lia]. apply (dy_lt_inv _ _ (e - 49)). rewrite dy_succ, dy_pow2' by lia. replace (e - 49 + 50) with (e + 1) by lia. lra.
  - rewrite dy_succ. assert (Q48 : (pow2 (-48) == 2 * pow2 (-49))%Q) by (change (-48) with (-49 + 1); apply pow2_dbl).
    assert (K : (2 * pow2 (e - 49) <= a * pow2 (-48))%Q) by (rewrite P, Q48; pose proof (pow2_pos (-49)); nra). lra.
Qed.
Lemma between52 a b : (pow2 (-1020) <= a)%Q -> (a <= pow2 900)%Q -> (a * (1 + pow2 (-51)) <= b)%Q ->
  exists g h, isf g /\ isf h /\ (a <= g)%Q /\ (g < h)%Q /\ (h <= b)%Q.
Proof.
  intros A B C. destruct (scale_at a (-1020) 900 ltac:(lia) A B) as (e & E & E1 & E2). destruct (upper a (e - 52)) as (m & M1 & M2).
  assert (P : (pow2 (e - 52) == pow2 e * pow2 (-52))%Q) by (replace (e - 52) with (e + -52) by lia; apply pow2_plus).
  assert (Q51 : (pow2 (-51) == 2 * pow2 (-52))%Q) by (change (-51) with (-52 + 1); apply pow2_dbl). pose proof (pow2_pos (e - 52)) as PP.
  assert (K : (2 * pow2 (e - 52) <= a * pow2 (-51))%Q) by (rewrite P, Q51; pose proof (pow2_pos (-52)); nra).
  assert (M3 : 2 ^ 52 <= m) by (apply (dy_le_inv _ _ (e - 52)); rewrite dy_pow2' by lia; replace (e - 52 + 52) with e by lia; lra).
  assert (M4 : m <= 2 ^ 53).
  { assert (m < 2 ^ 53 + 1); [|lia]. apply (dy_lt_inv _ _ (e - 52)). rewrite dy_succ, dy_pow2' by lia. replace (e - 52 + 53) with (e + 1) by lia. lra. }
  destruct (Z.eq_dec m (2 ^ 53)) as [->|N].
  - exists (dy (2 * 2 ^ 52) (e - 52)), (dy (2 * (2 ^ 52 + 1)) (e - 52)). split; [apply isf_even; lia|]. split; [apply isf_even; lia|].
    split; [exact M1|]. split; [apply dy_lt; lia|]. 
    assert (A1 : (dy (2 ^ 53) (e - 52) - pow2 (e - 52) < a)%Q) by lra.
    assert (D2 : (dy (2 * (2 ^ 52 + 1)) (e - 52) == dy (2 ^ 53) (e - 52) + 2 * pow2 (e - 52))%Q) by (replace (2 * (2 ^ 52 + 1)) with (2 ^ 53 + 1 + 1) by lia; rewrite !dy_succ; ring).
    rewrite D2. assert (K3 : (3 * pow2 (e - 52) <= a * pow2 (-51))%Q); [|lra].
    assert (X : (dy (2 ^ 53) (e - 52) == pow2 (e - 52) * pow2 53)%Q) by (rewrite dy_pow2' by lia; rewrite <- pow2_plus; reflexivity). rewrite X in A1.
    assert (Y : (pow2 53 * pow2 (-51) == 4)%Q) by reflexivity. assert (Y2 : (pow2 (-51) <= 1)%Q) by (vm_compute; discriminate). pose proof (pow2_pos (-51)) as Y3.
    set (t := pow2 (e - 52)) in *. set (z := pow2 (-51)) in *. set (w := pow2 53) in *. clearbody t z w. assert (Z1 : (t * w * z == 4 * t)%Q) by (setoid_replace (t * w * z)%Q with (t * (w * z))%Q by ring; rewrite Y; ring).
    assert (Z2 : ((t * w - t) * z <= a * z)%Q) by nra. nra.
  - exists (dy m (e - 52)), (dy (m + 1) (e - 52)). split; [apply isf_dy; lia|]. split.
    + destruct (Z.eq_dec (m + 1) (2 ^ 53)) as [->|N2]; [change (2 ^ 53) with (2 * 2 ^ 52); apply isf_even; lia|apply isf_dy; lia].
    + split; [exact M1|]. split; [apply dy_lt; lia|]. rewrite dy_succ. lra.
Qed.

Section r.
Context (rnd : Q -> Z).
Hypothesis RN : rounding 11 52 rnd.

(** [u] is the rounded square of the rounded [x]. *)
Definition sqd (x u : Q) : Prop := exists y z, ieee_val 11 52 (rnd x) = FinVal y /\ ieee_val 11 52 (rnd (y * y)) = FinVal z /\ (z == u)%Q.

Lemma rnd_fin x b : isf b -> (Qabs x <= b)%Q -> exists y, ieee_val 11 52 (rnd x) = FinVal y /\ (Qabs y <= b)%Q.
Proof using RN.
  intros B X. pose proof (is_float_opp 11 52 fmt_d _ B) as B'. destruct (rn_exact _ _ _ RN _ B) as (y & Y & YE). destruct (rn_exact _ _ _ RN _ B') as (z & Z & ZE).
  assert (X1 : (x <= b)%Q) by (pose proof (Qle_Qabs x); lra). assert (X2 : (- b <= x)%Q) by (pose proof (Qle_Qabs (- x)) as H; rewrite Qabs_opp in H; lra).
  pose proof (rn_mono _ _ _ RN _ _ X1) as M1. pose proof (rn_mono _ _ _ RN _ _ X2) as M2. rewrite Y in M1. rewrite Z in M2.
  destruct (ieee_val 11 52 (rnd x)) as [k|[]|]; cbn [ext_le] in M1, M2; try contradiction. exists k. split; [reflexivity|]. apply Qabs_Qle_condition. split; lra.
Qed.
Lemma sqd_ex x : (Qabs x <= pow2 500)%Q -> exists u, sqd x u.
Proof using RN.
  intros X. destruct (rnd_fin x (pow2 500) (isf_pow2 500 ltac:(lia)) X) as (y & Y & YB).
  destruct (rnd_fin (y * y) (pow2 1000) (isf_pow2 1000 ltac:(lia))) as (z & Z & _).
  - rewrite Qabs_Qmult. change 1000 with (500 + 500). rewrite pow2_plus. pose proof (Qabs_nonneg y). pose proof (pow2_pos 500). nra.
  - exists z, y, z. split; [exact Y|]. split; [exact Z|reflexivity].
Qed.
Lemma fin_le x y p q : ieee_val 11 52 (rnd x) = FinVal p -> ieee_val 11 52 (rnd y) = FinVal q -> (x <= y)%Q -> (p <= q)%Q.
Proof using RN. intros P Q L. pose proof (rn_mono _ _ _ RN _ _ L) as M. rewrite P, Q in M. exact M. Qed.
(** On one side, farther is not smaller. *)
Lemma sqd_mono x x' u u' : sqd x u -> sqd x' u' -> (0 <= x /\ x <= x' \/ x' <= x /\ x <= 0)%Q -> (u <= u')%Q.
Proof using RN.
  intros (y & z & Y & Z & E) (y' & z' & Y' & Z' & E') S. rewrite <- E, <- E'. apply (fin_le _ _ _ _ Z Z').
  assert (F0 : isf 0) by (change 0%Q with (inject_Z 0); apply int_double; lia).
  destruct S as [[S1 S2]|[S1 S2]].
  - pose proof (rnd_ge 11 52 rnd RN _ _ F0 S1 y Y). pose proof (fin_le _ _ _ _ Y Y' S2). nra.
  - pose proof (rnd_le 11 52 rnd RN _ _ F0 S2 y Y). pose proof (fin_le _ _ _ _ Y' Y S1). nra.
Qed.
(** Floats between the distances and between their squares. *)
Lemma sqd_sep x x' u u' f g h k : sqd x u -> sqd x' u' -> isf f -> isf g -> isf h -> isf k ->
  (Qabs x <= f)%Q -> (0 <= g)%Q -> (g <= Qabs x')%Q -> (f * f <= h)%Q -> (h < k)%Q -> (k <= g * g)%Q -> (u < u')%Q.
Proof using RN.
  intros (y & z & Y & Z & E) (y' & z' & Y' & Z' & E') F G H K X G0 X' HF HK KG. rewrite <- E, <- E'.
  destruct (rnd_fin x f F X) as (y1 & Y1 & YB). rewrite Y in Y1. injection Y1 as <-.
  assert (A : (z <= h)%Q).
  { apply (rnd_le 11 52 rnd RN (y * y) h H); [|exact Z]. pose proof (Qabs_nonneg y). assert (S : (y * y == Qabs y * Qabs y)%Q) by (rewrite <- Qabs_Qmult, Qabs_pos by nra; reflexivity). rewrite S. nra. }
  assert (B : (k <= z')%Q); [|lra].
  apply (rnd_ge 11 52 rnd RN (y' * y') k K); [|exact Z'].
  assert (W : (g <= y' \/ y' <= - g)%Q).
  { destruct (Qlt_le_dec x' 0) as [N|N].
    - right. rewrite Qabs_neg in X' by lra. apply (rnd_le 11 52 rnd RN x' (- g) (is_float_opp 11 52 fmt_d _ G)); [lra|exact Y'].
    - left. rewrite Qabs_pos in X' by lra. apply (rnd_ge 11 52 rnd RN x' g G); [lra|exact Y']. }
  destruct W; nra.
Qed.
(** Distances whose ratio is not too close to 1. *)
Lemma sqd_far x x' u u' a : sqd x u -> sqd x' u' -> (pow2 (-505) <= a)%Q -> (a <= pow2 400)%Q -> (Qabs x <= a)%Q -> (a * (1 + pow2 (-48)) <= Qabs x')%Q -> (u < u')%Q.
Proof using RN.
  intros S S' A1 A2 X X'. destruct (between49 a (Qabs x')) as (m & j & M & J & B1 & B0 & B2).
  - eapply Qle_trans; [|exact A1]. apply pow2_le. lia.
  - eapply Qle_trans; [exact A2|]. apply pow2_le. lia.
  - exact X'.
  - pose proof (pow2_pos j) as PJ. pose proof (pow2_pos (-505)) as P5.
    assert (SQ : (dy m j * dy m j * (1 + pow2 (-51)) <= dy (m + 1) j * dy (m + 1) j)%Q).
    { assert (T : (inject_Z m * pow2 (-51) <= 1)%Q).
      { apply Qle_trans with (inject_Z (2 ^ 51) * pow2 (-51))%Q; [pose proof (inj_le m (2 ^ 51) ltac:(lia)); pose proof (pow2_pos (-51)); nra|vm_compute; discriminate]. }
      assert (M0 : (0 <= inject_Z m)%Q) by (change 0%Q with (inject_Z 0); apply inj_le; lia).
      rewrite dy_succ. unfold dy. set (i := inject_Z m) in *. set (t := pow2 j) in *. set (w := pow2 (-51)) in *.
      setoid_replace (i * t * (i * t) * (1 + w))%Q with ((i * i + i * (i * w)) * (t * t))%Q by ring. setoid_replace ((i * t + t) * (i * t + t))%Q with ((i * i + 2 * i + 1) * (t * t))%Q by ring.
      apply Qmult_le_compat_r; [|nra]. nra. }
    destruct (between52 (dy m j * dy m j) (dy (m + 1) j * dy (m + 1) j)) as (h & k & H & K & C1 & C2 & C3).
    + assert (L : (pow2 (-505) <= dy m j)%Q) by lra. apply Qle_trans with (pow2 (-505) * pow2 (-505))%Q; [rewrite <- pow2_plus; apply pow2_le; lia|]. nra.
    + assert (U : (dy m j <= pow2 402)%Q).
      { assert (T : (2 * pow2 400 <= pow2 402)%Q) by (change 402 with (400 + 1 + 1); rewrite !pow2_dbl; pose proof (pow2_pos 400); lra). lra. }
      assert (D0 : (0 < dy m j)%Q) by (apply dy_pos; lia).
      apply Qle_trans with (pow2 402 * pow2 402)%Q; [nra|]. rewrite <- pow2_plus. apply pow2_le. lia.
    + exact SQ.
    + apply (sqd_sep x x' u u' (dy m j) (dy (m + 1) j) h k S S'); try assumption.
      * apply isf_dy; lia.
      * apply isf_dy; lia.
      * lra.
      * apply Qlt_le_weak, dy_pos. lia.
Qed.

(** Whole multiples of a power of two. *)
Lemma sqd_exact x x' u u' n n' j : sqd x u -> sqd x' u' -> -550 <= j <= 350 -> (pow2 (-505) <= dy n j)%Q -> n + 2 <= n' -> n < 2 ^ 53 -> (Qabs x == dy n j)%Q -> (Qabs x' == dy n' j)%Q -> (u < u')%Q.
Proof using RN.
  intros S S' J LO N N53 X X'. assert (N0 : 0 < n) by (apply (dy_lt_inv _ _ j); rewrite dy_0; pose proof (pow2_pos (-505)); lra). destruct (Z_lt_le_dec n' (2 ^ 53)) as [L|L].
  - destruct (between52 (dy n j * dy n j) (dy n' j * dy n' j)) as (h & k & H & K & C1 & C2 & C3).
    + apply Qle_trans with (pow2 (-505) * pow2 (-505))%Q; [rewrite <- pow2_plus; apply pow2_le; lia|]. pose proof (pow2_pos (-505)). nra.
    + rewrite dy_mul. apply Qle_trans with (dy (2 ^ 106) (j + j)); [apply dy_le; change (2 ^ 106) with (2 ^ 53 * 2 ^ 53); apply Z.mul_le_mono_nonneg; lia|]. rewrite dy_pow2' by lia. apply pow2_le. lia.
    + assert (T : (inject_Z n * pow2 (-51) <= 4)%Q).
      { apply Qle_trans with (inject_Z (2 ^ 53) * pow2 (-51))%Q; [pose proof (inj_le n (2 ^ 53) ltac:(lia)); pose proof (pow2_pos (-51)); nra|vm_compute; discriminate]. }
      assert (M0 : (0 <= inject_Z n)%Q) by (change 0%Q with (inject_Z 0); apply inj_le; lia). pose proof (inj_le (n + 2) n' N) as M1. rewrite inject_Z_plus in M1. change (inject_Z 2) with 2%Q in M1.
      unfold dy. pose proof (pow2_pos j) as PJ. set (i := inject_Z n) in *. set (i' := inject_Z n') in *. set (t := pow2 j) in *. set (w := pow2 (-51)) in *.
      setoid_replace (i * t * (i * t) * (1 + w))%Q with ((i * i + i * (i * w)) * (t * t))%Q by ring. setoid_replace (i' * t * (i' * t))%Q with (i' * i' * (t * t))%Q by ring.
      apply Qmult_le_compat_r; [|nra]. nra.
    + apply (sqd_sep x x' u u' (dy n j) (dy n' j) h k S S'); try assumption; try (apply isf_dy; lia); try lra. apply Qlt_le_weak, dy_pos. lia.
  - apply (sqd_sep x x' u u' (dy n j) (dy (2 * 2 ^ 52) j) (dy (2 ^ 53 - 1) (j + j + 53)) (dy (2 * 2 ^ 52) (j + j + 53)) S S'); try (apply isf_dy; lia); try (apply isf_even; lia).
    + lra.
    + apply Qlt_le_weak, dy_pos. lia.
    + rewrite X'. apply dy_le. lia.
    + rewrite dy_mul, <- (dy_pow _ (j + j) 53) by lia. apply dy_le. apply Z.mul_le_mono_nonneg; lia.
    + apply dy_lt. lia.
    + rewrite dy_mul, <- (dy_pow _ (j + j) 53) by lia. apply dy_le. lia.
Qed.
Lemma sqd_tie x x' u u' n j : sqd x u -> sqd x' u' -> -550 <= j <= 350 -> 0 <= n < 2 ^ 53 -> (Qabs x == dy n j)%Q -> (Qabs x' == dy n j)%Q -> (u == u')%Q.
Proof using RN.
  intros (y & z & Y & Z & E) (y' & z' & Y' & Z' & E') J N X X'. rewrite <- E, <- E'.
  assert (T : forall a b, ieee_val 11 52 (rnd a) = FinVal b -> (Qabs a == dy n j)%Q -> (b * b == dy n j * dy n j)%Q).
  { intros a b B A. assert (FA : isf a).
    { pose proof (isf_dy n j N ltac:(lia)) as F. destruct (Qlt_le_dec a 0) as [L|L]; [rewrite Qabs_neg in A by lra|rewrite Qabs_pos in A by lra].
      - apply (is_float_comp 11 52 (- dy n j)); [rewrite <- A; ring|apply (is_float_opp 11 52 fmt_d); exact F].
      - apply (is_float_comp 11 52 (dy n j)); [symmetry; exact A|exact F]. }
    destruct (rn_exact _ _ _ RN _ FA) as (p & P & PE). rewrite B in P. injection P as <-. rewrite PE, <- A, <- Qabs_Qmult, Qabs_pos by nra. reflexivity. }
  pose proof (T _ _ Y X) as T1. pose proof (T _ _ Y' X') as T2. apply Qle_antisym; [apply (fin_le _ _ _ _ Z Z')|apply (fin_le _ _ _ _ Z' Z)]; rewrite T1, T2; apply Qle_refl.
Qed.
End r.
