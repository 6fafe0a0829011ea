(** Powers of two in Q and the logarithmic coordinate of positive dyadic numbers. *)
From Coq Require Import ZArith QArith Qpower Lia Lqa Bool.
From Verif Require Import Spec.
Open Scope Z_scope.

Lemma two_nz : ~ (2 # 1 == 0)%Q.
Proof. discriminate. Qed.

Lemma pow2_plus a b : (pow2 (a + b) == pow2 a * pow2 b)%Q.
Proof. unfold pow2. apply Qpower_plus. apply two_nz. Qed.

Lemma pow2_0 : (pow2 0 == 1)%Q.
Proof. reflexivity. Qed.

Lemma pow2_Z n : 0 <= n -> (pow2 n == inject_Z (2 ^ n))%Q.
Proof.
  intros H. unfold pow2.
  destruct n as [|p|p]; [reflexivity| |lia].
  rewrite Zpower_Qpower by lia. reflexivity.
Qed.

Lemma pow2_pos e : (0 < pow2 e)%Q.
Proof.
  destruct (Z_le_gt_dec 0 e) as [H|H].
  - rewrite pow2_Z by lia. change 0%Q with (inject_Z 0). rewrite <- Zlt_Qlt.
    apply Z.pow_pos_nonneg; lia.
  - assert (E : (pow2 e * pow2 (- e) == 1)%Q)
      by (rewrite <- pow2_plus, Z.add_opp_diag_r; reflexivity).
    assert (P : (0 < pow2 (- e))%Q).
    { rewrite pow2_Z by lia. change 0%Q with (inject_Z 0). rewrite <- Zlt_Qlt.
      apply Z.pow_pos_nonneg; lia. }
    destruct (Qlt_le_dec 0 (pow2 e)) as [|L]; [assumption|exfalso].
    nra.
Qed.

Lemma pow2_nz e : ~ (pow2 e == 0)%Q.
Proof. pose proof (pow2_pos e). lra. Qed.

Lemma pow2_lt_1 e : 0 < e -> (1 < pow2 e)%Q.
Proof.
  intros H. rewrite pow2_Z by lia. change 1%Q with (inject_Z 1). rewrite <- Zlt_Qlt.
  apply Z.pow_gt_1; lia.
Qed.

Lemma pow2_lt a b : a < b -> (pow2 a < pow2 b)%Q.
Proof.
  intros H. replace b with (a + (b - a)) by lia. rewrite pow2_plus.
  pose proof (pow2_pos a). pose proof (pow2_lt_1 (b - a) ltac:(lia)). nra.
Qed.

Lemma pow2_le a b : a <= b -> (pow2 a <= pow2 b)%Q.
Proof.
  intros H. destruct (Z.eq_dec a b) as [->|N]; [lra|].
  apply Qlt_le_weak, pow2_lt; lia.
Qed.

Lemma pow2_lt_inv a b : (pow2 a < pow2 b)%Q -> a < b.
Proof.
  intros H. destruct (Z_lt_le_dec a b) as [|L]; [assumption|].
  apply pow2_le in L. lra.
Qed.

Lemma pow2_opp e : (pow2 (- e) == / pow2 e)%Q.
Proof. unfold pow2. apply Qpower_opp. Qed.

Lemma pow2_sub a b : (pow2 (a - b) == pow2 a / pow2 b)%Q.
Proof.
  unfold Z.sub. rewrite pow2_plus, pow2_opp. reflexivity.
Qed.

Lemma inj_lt a b : a < b -> (inject_Z a < inject_Z b)%Q.
Proof. intros; now rewrite <- Zlt_Qlt. Qed.
Lemma inj_le a b : a <= b -> (inject_Z a <= inject_Z b)%Q.
Proof. intros; now rewrite <- Zle_Qle. Qed.

(** [sgn m e] : the number m * 2^e. *)
Definition dy (m e : Z) : Q := (inject_Z m * pow2 e)%Q.

Lemma dy_pow m e j : 0 <= j -> (dy (m * 2 ^ j) e == dy m (e + j))%Q.
Proof.
  intros H. unfold dy. rewrite inject_Z_mult, (Z.add_comm e j), pow2_plus, <- pow2_Z by lia. ring.
Qed.

Lemma dy_align m e e' : e' <= e -> (dy m e == dy (m * 2 ^ (e - e')) e')%Q.
Proof.
  intros H. rewrite dy_pow by lia. replace (e' + (e - e')) with e by lia. reflexivity.
Qed.

Lemma dy_lt m m' e : m < m' -> (dy m e < dy m' e)%Q.
Proof.
  intros H. unfold dy. pose proof (pow2_pos e). apply inj_lt in H. nra.
Qed.
Lemma dy_le m m' e : m <= m' -> (dy m e <= dy m' e)%Q.
Proof.
  intros H. unfold dy. pose proof (pow2_pos e). apply inj_le in H. nra.
Qed.
Lemma dy_lt_inv m m' e : (dy m e < dy m' e)%Q -> m < m'.
Proof.
  intros H. destruct (Z_lt_le_dec m m') as [|L]; [assumption|].
  apply (dy_le _ _ e) in L. lra.
Qed.
Lemma dy_le_inv m m' e : (dy m e <= dy m' e)%Q -> m <= m'.
Proof.
  intros H. destruct (Z_le_gt_dec m m') as [|L]; [assumption|].
  assert (L' : m' < m) by lia. apply (dy_lt _ _ e) in L'. lra.
Qed.
Lemma dy_eq_inv m m' e : (dy m e == dy m' e)%Q -> m = m'.
Proof.
  intros H. apply Z.le_antisymm; apply (dy_le_inv _ _ e); lra.
Qed.
Lemma dy_pos m e : 0 < m -> (0 < dy m e)%Q.
Proof.
  intros H. unfold dy. pose proof (pow2_pos e). apply inj_lt in H.
  change (inject_Z 0) with 0%Q in H. nra.
Qed.
Lemma dy_mul m n e f : (dy m e * dy n f == dy (m * n) (e + f))%Q.
Proof. unfold dy. rewrite inject_Z_mult, pow2_plus. ring. Qed.
Lemma dy_add m n e : (dy m e + dy n e == dy (m + n) e)%Q.
Proof. unfold dy. rewrite inject_Z_plus. ring. Qed.
Lemma dy_opp m e : (- dy m e == dy (- m) e)%Q.
Proof. unfold dy. rewrite inject_Z_opp. ring. Qed.
Lemma dy_0 e : (dy 0 e == 0)%Q.
Proof. unfold dy. change (inject_Z 0) with 0%Q. ring. Qed.
Lemma dy_1_0 : (dy 1 0 == 1)%Q.
Proof. reflexivity. Qed.

(** The positive number at logarithmic coordinate [y], in steps of 2^-g. *)
Definition lval (g y : Z) : Q := dy (2 ^ g + y mod 2 ^ g) (y / 2 ^ g - g).

Lemma lval_ef g e f : 0 <= f < 2 ^ g -> (lval g (e * 2 ^ g + f) = dy (2 ^ g + f) (e - g))%Q.
Proof.
  intros H. unfold lval.
  rewrite (Z.add_comm _ f), Z.mod_add, Z.mod_small, Z.div_add, Z.div_small by lia.
  reflexivity.
Qed.

Lemma lval_pos g y : 0 <= g -> (0 < lval g y)%Q.
Proof.
  intros H. apply dy_pos.
  pose proof (Z.pow_pos_nonneg 2 g ltac:(lia) H).
  pose proof (Z.mod_pos_bound y (2 ^ g) ltac:(lia)). lia.
Qed.

(** closed upper end of a binade *)
Lemma lval_ef' g e f : 0 <= g -> 0 <= f <= 2 ^ g ->
  (lval g (e * 2 ^ g + f) == dy (2 ^ g + f) (e - g))%Q.
Proof.
  intros G H. destruct (Z.eq_dec f (2 ^ g)) as [->|].
  - replace (e * 2 ^ g + 2 ^ g) with ((e + 1) * 2 ^ g + 0) by lia.
    rewrite lval_ef by lia.
    rewrite (dy_align _ (e + 1 - g) (e - g)) by lia.
    replace (e + 1 - g - (e - g)) with 1 by lia.
    replace ((2 ^ g + 0) * 2 ^ 1) with (2 ^ g + 2 ^ g) by lia. reflexivity.
  - rewrite lval_ef by lia. reflexivity.
Qed.

Lemma lval_step g y : 0 <= g -> (lval g y < lval g (y + 1))%Q.
Proof.
  intros G.
  pose proof (Z.pow_pos_nonneg 2 g ltac:(lia) G) as P.
  pose proof (Z.mod_pos_bound y (2 ^ g) P) as M.
  pose proof (Z.div_mod y (2 ^ g) ltac:(lia)) as D.
  assert (E : y = (y / 2 ^ g) * 2 ^ g + y mod 2 ^ g) by lia.
  remember (y / 2 ^ g) as e. remember (y mod 2 ^ g) as f. rewrite E.
  rewrite lval_ef by lia. rewrite <- Z.add_assoc.
  rewrite lval_ef' by lia. apply dy_lt. lia.
Qed.

Lemma lval_lt g y y' : 0 <= g -> y < y' -> (lval g y < lval g y')%Q.
Proof.
  intros G H. replace y' with (y + Z.of_nat (S (Z.to_nat (y' - y - 1)))) by lia.
  induction (Z.to_nat (y' - y - 1)) as [|n IH].
  - apply lval_step; lia.
  - eapply Qlt_trans; [exact IH|].
    replace (y + Z.of_nat (S (S n))) with (y + Z.of_nat (S n) + 1) by lia.
    apply lval_step; lia.
Qed.

Lemma lval_le g y y' : 0 <= g -> y <= y' -> (lval g y <= lval g y')%Q.
Proof.
  intros G H. destruct (Z.eq_dec y y') as [->|]; [lra|].
  apply Qlt_le_weak, lval_lt; lia.
Qed.
Lemma lval_lt_inv g y y' : 0 <= g -> (lval g y < lval g y')%Q -> y < y'.
Proof.
  intros G H. destruct (Z_lt_le_dec y y') as [|L]; [assumption|].
  apply (lval_le g) in L; [lra|lia].
Qed.
Lemma lval_le_inv g y y' : 0 <= g -> (lval g y <= lval g y')%Q -> y <= y'.
Proof.
  intros G H. destruct (Z_le_gt_dec y y') as [|L]; [assumption|].
  assert (L' : y' < y) by lia. apply (lval_lt g) in L'; [lra|lia].
Qed.
Lemma lval_eq_inv g y y' : 0 <= g -> (lval g y == lval g y')%Q -> y = y'.
Proof. intros G H. apply Z.le_antisymm; apply (lval_le_inv g); try lia; lra. Qed.

(** Refining the step. *)
Lemma lval_refine g j y : 0 <= g -> 0 <= j -> (lval (g + j) (y * 2 ^ j) == lval g y)%Q.
Proof.
  intros G J.
  pose proof (Z.pow_pos_nonneg 2 g ltac:(lia) G) as P.
  pose proof (Z.pow_pos_nonneg 2 j ltac:(lia) J) as PJ.
  pose proof (Z.mod_pos_bound y (2 ^ g) P) as M.
  pose proof (Z.div_mod y (2 ^ g) ltac:(lia)) as D.
  assert (E : y = (y / 2 ^ g) * 2 ^ g + y mod 2 ^ g) by lia.
  remember (y / 2 ^ g) as e. remember (y mod 2 ^ g) as f. rewrite E.
  replace ((e * 2 ^ g + f) * 2 ^ j) with (e * 2 ^ (g + j) + f * 2 ^ j)
    by (rewrite Z.pow_add_r by lia; ring).
  rewrite !lval_ef by (rewrite ?Z.pow_add_r by lia; nia).
  rewrite Z.pow_add_r, <- Z.mul_add_distr_r by lia.
  rewrite dy_pow by lia. replace (e - (g + j) + j) with (e - g) by lia. reflexivity.
Qed.

Lemma dy_lval g e f : 0 <= f < 2 ^ g -> (dy (2 ^ g + f) (e - g) == lval g (e * 2 ^ g + f))%Q.
Proof. intros; rewrite lval_ef by lia; reflexivity. Qed.
