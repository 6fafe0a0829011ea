(** The logistic function against its piecewise linear approximation. *)
From Coq Require Import Reals Lra Psatz.
Open Scope R_scope.

Lemma exp_ge x : 1 + x <= exp x.
Proof. destruct (Req_dec x 0) as [->|N]; [rewrite exp_0; lra|]. left. apply exp_ineq1. exact N. Qed.
Lemma exp_le_inv x : x < 1 -> exp x <= / (1 - x).
Proof.
  intros L. pose proof (exp_ge (- x)) as G. rewrite exp_Ropp in G. pose proof (exp_pos x) as P.
  apply (Rmult_le_reg_l (1 - x)); [lra|]. rewrite Rinv_r by lra.
  apply (Rmult_le_compat_r (exp x)) in G; [|lra]. rewrite Rinv_l in G by lra. lra.
Qed.
Lemma exp_double x : exp (2 * x) = exp x * exp x.
Proof. replace (2 * x) with (x + x) by ring. apply exp_plus. Qed.
Lemma exp_nat n x : exp (INR n * x) = exp x ^ n.
Proof.
  induction n as [|n IH]; [rewrite Rmult_0_l; apply exp_0|]. rewrite S_INR, Rmult_plus_distr_r, Rmult_1_l, exp_plus, IH. cbn [pow]. ring.
Qed.
(** The standard bounds from exp x <= 1/(1-x). *)
Lemma e_upper : exp 1 <= 27238 / 10000.
Proof.
  assert (E : exp 1 = exp (/ 256) ^ 256). { rewrite <- exp_nat. f_equal. rewrite INR_IZR_INZ. cbn -[IZR]. change (Z.of_nat 256) with 256%Z. lra. }
  rewrite E. assert (B : exp (/ 256) <= 256 / 255). { eapply Rle_trans; [apply exp_le_inv; lra|]. right. field. }
  assert (P : 0 < exp (/ 256)) by apply exp_pos.
  assert (SQ : forall a n u w, 0 < a -> a ^ n <= u -> u * u <= w -> a ^ (n + n) <= w).
  { intros a n u w A L M. rewrite pow_add. pose proof (pow_lt a n A). apply Rle_trans with (u * u); [|exact M]. apply Rmult_le_compat; lra. }
  set (a := exp (/ 256)) in *.
  assert (H1 : a ^ 1 <= 256 / 255) by (rewrite pow_1; exact B).
  assert (H2 : a ^ 2 <= 10078586 / 10000000) by (apply (SQ a 1%nat _ _ P H1); lra).
  assert (H4 : a ^ 4 <= 10157790 / 10000000) by (apply (SQ a 2%nat _ _ P H2); lra).
  assert (H8 : a ^ 8 <= 10318070 / 10000000) by (apply (SQ a 4%nat _ _ P H4); lra).
  assert (H16 : a ^ 16 <= 10646257 / 10000000) by (apply (SQ a 8%nat _ _ P H8); lra).
  assert (H32 : a ^ 32 <= 11334279 / 10000000) by (apply (SQ a 16%nat _ _ P H16); lra).
  assert (H64 : a ^ 64 <= 12846589 / 10000000) by (apply (SQ a 32%nat _ _ P H32); lra).
  assert (H128 : a ^ 128 <= 16503486 / 10000000) by (apply (SQ a 64%nat _ _ P H64); lra).
  apply (SQ a 128%nat _ _ P H128). lra.
Qed.
Lemma exp_frac p q y : (0 < q)%nat -> 0 <= y -> (27238 / 10000) ^ p <= y ^ q -> exp (INR p / INR q) <= y.
Proof.
  intros Q Y L. assert (Q0 : 0 < INR q) by (apply (lt_INR 0); exact Q).
  destruct (Rle_lt_dec (exp (INR p / INR q)) y) as [|G]; [assumption|exfalso].
  assert (E : exp (INR p / INR q) ^ q = exp 1 ^ p). { rewrite <- !exp_nat. f_equal. field. lra. }
  assert (A : y ^ q < exp (INR p / INR q) ^ q).
  { set (z := exp (INR p / INR q)) in *. clearbody z. clear - Q Y G. destruct q as [|q]; [inversion Q|]. clear Q. induction q as [|q IH]; [rewrite !pow_1; exact G|].
    cbn [pow] in *. pose proof (pow_le y q Y). apply Rmult_le_0_lt_compat; [lra| |exact G|exact IH]. apply Rmult_le_pos; lra. }
  assert (B : exp 1 ^ p <= (27238 / 10000) ^ p) by (apply pow_incr; split; [left; apply exp_pos|apply e_upper]).
  lra.
Qed.

Definition logistic (x : R) : R := / (1 + exp (- x)).
Lemma logistic_compl x : logistic x = 1 - / (1 + exp x).
Proof. unfold logistic. rewrite exp_Ropp. pose proof (exp_pos x). field. split; lra. Qed.
Lemma logistic_opp x : logistic (- x) = 1 - logistic x.
Proof. rewrite (logistic_compl x). unfold logistic. rewrite Ropp_involutive. ring. Qed.
Lemma inv_le a b : 0 < a -> 1 <= a * b -> / a <= b.
Proof. intros A L. apply (Rmult_le_reg_l a); [exact A|]. rewrite Rinv_r by lra. exact L. Qed.
Lemma inv_ge a b : 0 < a -> a * b <= 1 -> b <= / a.
Proof. intros A L. apply (Rmult_le_reg_l a); [exact A|]. rewrite Rinv_r by lra. exact L. Qed.

(** [0,1]: the approximation is 1/2 + x/4. *)
Lemma logistic_unit x : 0 <= x <= 1 -> Rabs (logistic x - (/ 2 + x / 4)) <= / 16.
Proof.
  intros [A B]. rewrite logistic_compl. pose proof (exp_pos x) as P.
  assert (E2 : exp x = exp (x / 2) * exp (x / 2)) by (rewrite <- exp_double; f_equal; field).
  assert (L : (1 + x / 2) * (1 + x / 2) <= exp x). { rewrite E2. pose proof (exp_ge (x / 2)). apply Rmult_le_compat; lra. }
  assert (U : exp x <= / (1 - x / 2) * / (1 - x / 2)).
  { rewrite E2. pose proof (exp_le_inv (x / 2) ltac:(lra)). pose proof (exp_pos (x / 2)). apply Rmult_le_compat; lra. }
  assert (S1 : / (1 + exp x) <= 9 / 16 - x / 4). { apply inv_le; [lra|]. nra. }
  assert (S2 : 7 / 16 - x / 4 <= / (1 + exp x)).
  { apply inv_ge; [lra|]. apply Rle_trans with ((1 + / (1 - x / 2) * / (1 - x / 2)) * (7 / 16 - x / 4)); [apply Rmult_le_compat_r; lra|].
    assert (0 < (1 - x / 2) * (1 - x / 2)) by nra.
    replace ((1 + / (1 - x / 2) * / (1 - x / 2)) * (7 / 16 - x / 4)) with (((1 - x / 2) * (1 - x / 2) + 1) * (7 / 16 - x / 4) / ((1 - x / 2) * (1 - x / 2))) by (field; lra).
    apply (Rmult_le_reg_r ((1 - x / 2) * (1 - x / 2))); [assumption|]. unfold Rdiv at 1. rewrite Rmult_assoc, Rinv_l by lra.
    assert (0 <= x * x * x) by (apply Rmult_le_pos; [apply Rmult_le_pos|]; lra). assert (0 <= (1 - x) * (8 + 4 * x - 3 * (x * x))) by (apply Rmult_le_pos; nra). lra. }
  apply Rabs_le. lra.
Qed.
(** Above 1: any approximation 1-d with 1/4 <= x*d <= 9/32. *)
Lemma logistic_above x d : 1 <= x -> / 4 <= x * d <= 9 / 32 -> Rabs (logistic x - (1 - d)) <= / 16.
Proof.
  intros X [D1 D2]. rewrite logistic_compl. pose proof (exp_pos x) as P.
  assert (D0 : 0 < d) by nra.
  assert (EX : 5 / 2 * x <= exp x).
  { assert (E1 : 5 / 2 <= exp 1).
    { assert (Q : exp 1 = exp (/ 8) ^ 8) by (rewrite <- exp_nat; f_equal; cbn [INR]; lra). pose proof (exp_ge (/ 8)) as G.
      assert (M : (1 + / 8) ^ 8 <= exp (/ 8) ^ 8) by (apply pow_incr; lra). rewrite Q. eapply Rle_trans; [|exact M]. cbn [pow]. lra. }
    replace x with (1 + (x - 1)) at 2 by ring. rewrite exp_plus. pose proof (exp_ge (x - 1)). apply Rmult_le_compat; lra. }
  assert (S1 : / (1 + exp x) <= d + / 16).
  { apply inv_le; [lra|]. apply Rle_trans with ((1 + 5 / 2 * x) * (d + / 16)); [|apply Rmult_le_compat_r; lra].
    apply (Rmult_le_reg_l x); [lra|]. nra. }
  assert (S2 : d - / 16 <= / (1 + exp x)).
  { apply inv_ge; [lra|]. destruct (Rle_lt_dec d (/ 16)) as [|DG]; [nra|].
    assert (XB : x < 9 / 2) by nra.
    assert (SEG : forall a b y, a <= x <= b -> 0 < a -> exp b <= y -> (1 + y) * (9 - 2 * a) <= 32 * a -> (1 + exp x) * (d - / 16) <= 1).
    { intros a b y [Xa Xb] A E Y. assert (EY : exp x <= y). { destruct (Req_dec x b) as [->|]; [exact E|]. pose proof (exp_increasing x b ltac:(lra)). lra. }
      apply Rle_trans with ((1 + y) * (d - / 16)); [apply Rmult_le_compat_r; lra|].
      assert (DA : d <= 9 / 32 / a). { apply (Rmult_le_reg_l a); [exact A|]. replace (a * (9 / 32 / a)) with (9 / 32) by (field; lra). nra. }
      apply Rle_trans with ((1 + y) * (9 / 32 / a - / 16)); [apply Rmult_le_compat_l; lra|].
      apply (Rmult_le_reg_l (32 * a)); [lra|]. replace (32 * a * ((1 + y) * (9 / 32 / a - / 16))) with ((1 + y) * (9 - 2 * a)) by (field; lra). lra. }
    destruct (Rle_lt_dec x (5 / 4)) as [K|K]. { apply (SEG 1 (5 / 4) (357 / 100)); try lra. replace (5 / 4) with (INR 5 / INR 4) by (cbn [INR]; lra). apply exp_frac; [repeat constructor|lra|cbn [pow]; lra]. }
    destruct (Rle_lt_dec x (8 / 5)) as [K1|K1]. { apply (SEG (5 / 4) (8 / 5) (515 / 100)); try lra. replace (8 / 5) with (INR 8 / INR 5) by (cbn [INR]; lra). apply exp_frac; [repeat constructor|lra|cbn [pow]; lra]. }
    destruct (Rle_lt_dec x 2) as [K2|K2]. { apply (SEG (8 / 5) 2 (782 / 100)); try lra. replace 2 with (INR 2 / INR 1) by (cbn [INR]; lra). apply exp_frac; [repeat constructor|lra|cbn [pow]; lra]. }
    destruct (Rle_lt_dec x (12 / 5)) as [K3|K3]. { apply (SEG 2 (12 / 5) (118 / 10)); try lra. replace (12 / 5) with (INR 12 / INR 5) by (cbn [INR]; lra). apply exp_frac; [repeat constructor|lra|cbn [pow]; lra]. }
    destruct (Rle_lt_dec x (14 / 5)) as [K4|K4]. { apply (SEG (12 / 5) (14 / 5) (1728 / 100)); try lra. replace (14 / 5) with (INR 14 / INR 5) by (cbn [INR]; lra). apply exp_frac; [repeat constructor|lra|cbn [pow]; lra]. }
    destruct (Rle_lt_dec x (16 / 5)) as [K5|K5]. { apply (SEG (14 / 5) (16 / 5) (2535 / 100)); try lra. replace (16 / 5) with (INR 16 / INR 5) by (cbn [INR]; lra). apply exp_frac; [repeat constructor|lra|cbn [pow]; lra]. }
    destruct (Rle_lt_dec x (18 / 5)) as [K6|K6]. { apply (SEG (16 / 5) (18 / 5) (3838 / 100)); try lra. replace (18 / 5) with (INR 18 / INR 5) by (cbn [INR]; lra). apply exp_frac; [repeat constructor|lra|cbn [pow]; lra]. }
    destruct (Rle_lt_dec x 4) as [K7|K7]. { apply (SEG (18 / 5) 4 63); try lra. replace 4 with (INR 4 / INR 1) by (cbn [INR]; lra). apply exp_frac; [repeat constructor|lra|cbn [pow]; lra]. }
    apply (SEG 4 (9 / 2) 127); try lra. replace (9 / 2) with (INR 9 / INR 2) by (cbn [INR]; lra). apply exp_frac; [repeat constructor|lra|cbn [pow]; lra]. }
  apply Rabs_le. lra.
Qed.
Lemma log1p_lt x : 0 <= x -> x < ln (1 + exp x) < x + 1.
Proof.
  intros X. pose proof (exp_pos x) as P. split.
  - rewrite <- (ln_exp x) at 1. apply ln_increasing; lra.
  - rewrite <- (ln_exp (x + 1)). apply ln_increasing; [lra|]. rewrite exp_plus. pose proof (exp_ge x). pose proof (exp_ineq1 1 ltac:(lra)). nra.
Qed.
