(** Bounds on base 2 logarithms, by repeated squaring. *)
From Coq Require Import ZArith QArith Qabs Qpower Qminmax Lia Lqa Bool List.
From Verif Require Import Res CInt Bits Traits Unpacked Cfg Posit Spec SpecTab SpecFloat SpecAny SpecGen FloatOps QPow TabProof TabProof3 GenProof4.
Open Scope Z_scope.

Lemma qpow_lt a b p : (0 < a)%Q -> (a < b)%Q -> (Qpower a (Zpos p) < Qpower b (Zpos p))%Q.
Proof.
  intros A L. cbn [Qpower]. induction p using Pos.peano_ind; [exact L|]. rewrite <- Pos.add_1_l, !Qpower_plus_positive. cbn [Qpower_positive pow_pos].
  assert (0 < Qpower_positive a p)%Q by (apply (Qpower_0_lt a (Zpos p) A)).
  apply Qlt_trans with (a * Qpower_positive b p)%Q; [apply Qmult_lt_l; assumption|]. apply Qmult_lt_r; [lra|exact L].
Qed.
Lemma qpow_le_iff a b p : (0 < a)%Q -> (0 < b)%Q -> (Qpower a (Zpos p) <= Qpower b (Zpos p))%Q <-> (a <= b)%Q.
Proof.
  intros A B. split; intros H.
  - apply Qnot_lt_le. intros L. pose proof (qpow_lt b a p B L). lra.
  - apply (qpow_mono a b p); [lra|exact H].
Qed.
Lemma pow2_mul n d : (pow2 (n * Zpos d) == Qpower (pow2 n) (Zpos d))%Q.
Proof. rewrite (pow2_Qpower n), <- Qpower_mult, <- pow2_Qpower. reflexivity. Qed.
Lemma qpow_pos y d : (0 < y)%Q -> (0 < Qpower y (Zpos d))%Q.
Proof. intros. apply Qpower_0_lt. assumption. Qed.
Lemma qpow_swap y a b : (Qpower (Qpower y (Zpos a)) (Zpos b) == Qpower (Qpower y (Zpos b)) (Zpos a))%Q.
Proof. rewrite <- !Qpower_mult, Z.mul_comm. reflexivity. Qed.

Lemma red_cross n d : Qnum (Qred (n # d)) * Zpos d = n * Zpos (Qden (Qred (n # d))).
Proof. exact (Qred_correct (n # d)). Qed.
Lemma le_frac y n d : (0 < y)%Q -> le_exp2 y (n # d) <-> (Qpower y (Zpos d) <= pow2 n)%Q.
Proof.
  intros Y. unfold le_exp2. pose proof (red_cross n d) as C. set (n' := Qnum (Qred (n # d))) in *. set (d' := Qden (Qred (n # d))) in *. clearbody n' d'.
  rewrite <- (qpow_le_iff (Qpower y (Zpos d')) (pow2 n') d) by (try apply qpow_pos; try apply pow2_pos; exact Y).
  rewrite <- (qpow_le_iff (Qpower y (Zpos d)) (pow2 n) d') by (try apply qpow_pos; try apply pow2_pos; exact Y).
  rewrite <- !pow2_mul, C, (qpow_swap y d' d). reflexivity.
Qed.
Lemma ge_frac y n d : (0 < y)%Q -> ge_exp2 y (n # d) <-> (pow2 n <= Qpower y (Zpos d))%Q.
Proof.
  intros Y. unfold ge_exp2. pose proof (red_cross n d) as C. set (n' := Qnum (Qred (n # d))) in *. set (d' := Qden (Qred (n # d))) in *. clearbody n' d'.
  rewrite <- (qpow_le_iff (pow2 n') (Qpower y (Zpos d')) d) by (try apply qpow_pos; try apply pow2_pos; exact Y).
  rewrite <- (qpow_le_iff (pow2 n) (Qpower y (Zpos d)) d') by (try apply qpow_pos; try apply pow2_pos; exact Y).
  rewrite <- !pow2_mul, C, (qpow_swap y d' d). reflexivity.
Qed.
Lemma exp2_args y u x : (0 < y)%Q -> le_exp2 y u -> ge_exp2 y x -> (x <= u)%Q.
Proof.
  intros Y. destruct u as [nu du], x as [nx dx]. rewrite le_frac, ge_frac by exact Y. intros A B.
  apply (qpow_le_iff _ _ dx (qpow_pos y du Y) (pow2_pos _)) in A. apply (qpow_le_iff _ _ du (pow2_pos _) (qpow_pos y dx Y)) in B.
  rewrite <- pow2_mul in A, B. rewrite (qpow_swap y dx du) in B. unfold Qle. cbn [Qnum Qden].
  destruct (Z_le_gt_dec (nx * Zpos du) (nu * Zpos dx)) as [L|L]; [exact L|]. pose proof (pow2_lt (nu * Zpos dx) (nx * Zpos du) ltac:(lia)). lra.
Qed.
Lemma le_exp2_up y u x : (0 < y)%Q -> le_exp2 y u -> (u <= x)%Q -> le_exp2 y x.
Proof.
  intros Y H L. destruct (le_ge_exp2 y x) as [G|G]; [exact G|]. pose proof (exp2_args y u x Y H G).
  apply (le_exp2_comp y y x u); [reflexivity|lra|exact H].
Qed.
Lemma ge_exp2_dn y u x : (0 < y)%Q -> ge_exp2 y u -> (x <= u)%Q -> ge_exp2 y x.
Proof.
  intros Y H L. destruct (le_ge_exp2 y x) as [G|G]; [|exact G]. pose proof (exp2_args y x u Y G H).
  apply (ge_exp2_comp y y u x); [reflexivity|lra|exact H].
Qed.
Lemma not_ge_exp2 y u x : (0 < y)%Q -> le_exp2 y u -> (u < x)%Q -> ~ ge_exp2 y x.
Proof. intros Y A L G. pose proof (exp2_args y u x Y A G). lra. Qed.
Lemma not_le_exp2 y u x : (0 < y)%Q -> ge_exp2 y u -> (x < u)%Q -> ~ le_exp2 y x.
Proof. intros Y A L G. pose proof (exp2_args y x u Y G A). lra. Qed.
Lemma ge_exp2_mono y z x : (0 <= y)%Q -> (y <= z)%Q -> ge_exp2 y x -> ge_exp2 z x.
Proof. unfold ge_exp2. intros A B H. eapply Qle_trans; [exact H|]. apply qpow_mono; assumption. Qed.
Lemma qpow_sq y d : (Qpower (y * y) (Zpos d) == Qpower y (Zpos (xO d)))%Q.
Proof.
  assert (E : (y * y == Qpower y 2)%Q) by reflexivity. rewrite E, <- Qpower_mult. reflexivity.
Qed.
Lemma le_exp2_sq y n d : (0 < y)%Q -> le_exp2 (y * y) (n # d) -> le_exp2 y (n # (xO d)).
Proof. intros Y. rewrite !le_frac by (try apply Qmult_lt_0_compat; exact Y). rewrite qpow_sq. auto. Qed.
Lemma ge_exp2_sq y n d : (0 < y)%Q -> ge_exp2 (y * y) (n # d) -> ge_exp2 y (n # (xO d)).
Proof. intros Y. rewrite !ge_frac by (try apply Qmult_lt_0_compat; exact Y). rewrite qpow_sq. auto. Qed.
Lemma qpow_shift y e d : (Qpower (y * pow2 e) (Zpos d) == Qpower y (Zpos d) * pow2 (e * Zpos d))%Q.
Proof. rewrite Qmult_power, pow2_mul. reflexivity. Qed.
Lemma le_exp2_shift y e n d : (0 < y)%Q -> le_exp2 y (n # d) -> le_exp2 (y * pow2 e) (n + e * Zpos d # d).
Proof.
  intros Y. assert (Y' : (0 < y * pow2 e)%Q) by (apply Qmult_lt_0_compat; [exact Y|apply pow2_pos]).
  rewrite !le_frac by assumption. rewrite qpow_shift, pow2_plus. intros H. apply Qmult_le_compat_r; [exact H|apply Qlt_le_weak, pow2_pos].
Qed.
Lemma ge_exp2_shift y e n d : (0 < y)%Q -> ge_exp2 y (n # d) -> ge_exp2 (y * pow2 e) (n + e * Zpos d # d).
Proof.
  intros Y. assert (Y' : (0 < y * pow2 e)%Q) by (apply Qmult_lt_0_compat; [exact Y|apply pow2_pos]).
  rewrite !ge_frac by assumption. rewrite qpow_shift, pow2_plus. intros H. apply Qmult_le_compat_r; [exact H|apply Qlt_le_weak, pow2_pos].
Qed.

(** ** Numbers between 1 and 2, as multiples of 2^-44 *)
Definition SC : positive := Eval vm_compute in (2 ^ 44)%positive.
Fixpoint p2 (n : nat) : positive := match n with O => 1%positive | S m => xO (p2 m) end.
Fixpoint up (n : nat) (y : Z) : Z :=
  match n with
  | O => 1
  | S m => let y2 := - ((- (y * y)) / Zpos SC) in
      if y2 <=? 2 * Zpos SC then up m y2 else Zpos (p2 m) + up m ((y2 + 1) / 2)
  end.
Fixpoint dn (n : nat) (y : Z) : Z :=
  match n with
  | O => 0
  | S m => let y2 := (y * y) / Zpos SC in
      if y2 <? 2 * Zpos SC then dn m y2 else Zpos (p2 m) + dn m (y2 / 2)
  end.
Lemma qsc_pos y : 0 < y -> (0 < y # SC)%Q. Proof. intros. unfold Qlt. cbn [Qnum Qden]. lia. Qed.
Lemma up_ok n : forall y, 0 < y <= 2 * Zpos SC -> le_exp2 (y # SC) (up n y # p2 n).
Proof.
  induction n as [|n IH]; intros y B; cbn [up p2].
  - rewrite le_frac by (apply qsc_pos; lia). change (Qpower (y # SC) 1 <= 2)%Q. cbn [Qpower Qpower_positive pow_pos]. unfold Qle. cbn [Qnum Qden]. lia.
  - set (y2 := - ((- (y * y)) / Zpos SC)). assert (S2 : y * y <= y2 * Zpos SC < y * y + Zpos SC).
    { unfold y2. pose proof (Z.div_mod (- (y * y)) (Zpos SC) ltac:(lia)). pose proof (Z.mod_pos_bound (- (y * y)) (Zpos SC) ltac:(lia)). lia. }
    clearbody y2. assert (P2 : 0 < y2) by nia.
    assert (Q2 : ((y # SC) * (y # SC) <= y2 # SC)%Q) by (unfold Qle, Qmult; cbn [Qnum Qden]; rewrite Pos2Z.inj_mul; nia).
    assert (YY : (0 < (y # SC) * (y # SC))%Q) by (apply Qmult_lt_0_compat; apply qsc_pos; lia).
    destruct (Z.leb_spec y2 (2 * Zpos SC)) as [L|L].
    + apply le_exp2_sq; [apply qsc_pos; lia|]. apply (le_exp2_mono _ (y2 # SC)); [lra|exact Q2|]. apply IH. lia.
    + assert (U : y2 <= 4 * Zpos SC) by nia. set (y3 := (y2 + 1) / 2). assert (S3 : y2 <= 2 * y3 <= y2 + 1) by (unfold y3; pose proof (Z.div_mod (y2 + 1) 2 ltac:(lia)); pose proof (Z.mod_pos_bound (y2 + 1) 2 ltac:(lia)); lia).
      clearbody y3. assert (B3 : 0 < y3 <= 2 * Zpos SC) by lia.
      apply le_exp2_sq; [apply qsc_pos; lia|].
      pose proof (le_exp2_shift (y3 # SC) 1 (up n y3) (p2 n) (qsc_pos y3 (proj1 B3)) (IH y3 B3)) as G. rewrite Z.mul_1_l, Z.add_comm in G.
      eapply le_exp2_mono; [| |exact G]; [lra|]. eapply Qle_trans; [exact Q2|]. change (pow2 1) with (2 # 1). unfold Qle, Qmult. cbn [Qnum Qden]. rewrite ?Pos.mul_1_r. nia.
Qed.
Lemma dn_ok n : forall y, Zpos SC <= y -> ge_exp2 (y # SC) (dn n y # p2 n).
Proof.
  induction n as [|n IH]; intros y B; cbn [dn p2].
  - rewrite ge_frac by (apply qsc_pos; lia). change (1 <= y # SC)%Q. unfold Qle. cbn [Qnum Qden]. lia.
  - set (y2 := (y * y) / Zpos SC). assert (S2 : y2 * Zpos SC <= y * y < y2 * Zpos SC + Zpos SC).
    { unfold y2. pose proof (Z.div_mod (y * y) (Zpos SC) ltac:(lia)). pose proof (Z.mod_pos_bound (y * y) (Zpos SC) ltac:(lia)). lia. }
    clearbody y2. assert (P2 : Zpos SC <= y2) by nia.
    assert (Q2 : (y2 # SC <= (y # SC) * (y # SC))%Q) by (unfold Qle, Qmult; cbn [Qnum Qden]; rewrite Pos2Z.inj_mul; nia).
    assert (YY : (0 < y2 # SC)%Q) by (apply qsc_pos; lia).
    destruct (Z.ltb_spec y2 (2 * Zpos SC)) as [L|L].
    + apply ge_exp2_sq; [apply qsc_pos; lia|]. apply (ge_exp2_mono (y2 # SC)); [lra|exact Q2|]. apply IH. lia.
    + set (y3 := y2 / 2). assert (S3 : y2 - 1 <= 2 * y3 <= y2) by (unfold y3; pose proof (Z.div_mod y2 2 ltac:(lia)); pose proof (Z.mod_pos_bound y2 2 ltac:(lia)); lia).
      clearbody y3. assert (B3 : Zpos SC <= y3) by (unfold SC in *; lia).
      apply ge_exp2_sq; [apply qsc_pos; lia|].
      pose proof (ge_exp2_shift (y3 # SC) 1 (dn n y3) (p2 n) (qsc_pos y3 ltac:(lia)) (IH y3 B3)) as G. rewrite Z.mul_1_l, Z.add_comm in G.
      eapply ge_exp2_mono; [| |exact G].
      * apply Qlt_le_weak, Qmult_lt_0_compat; [apply qsc_pos; lia|apply pow2_pos].
      * eapply Qle_trans; [|exact Q2]. change (pow2 1) with (2 # 1). unfold Qle, Qmult. cbn [Qnum Qden]. rewrite ?Pos.mul_1_r. nia.
Qed.
