(** Exponential, constants and predicates of the tabulated classes; posit12 tables. *)
From Coq Require Import ZArith QArith Qabs Qpower List Bool Lia Lqa.
From Verif Require Import Res CInt Traits Unpacked Cfg Posit Configs Spec QPow Core SpecLemmas Arith DecodeProof EncodeProof
  UOps UAdd Ops OpsAdd OpsUnary OpsUnary2 Specials Room Laws Final1 Final2 Final3 SpecTab Tab TabProof TabProof2.
From Verif Require Tbl8 Tbl12.
Import ListNotations.
Open Scope Z_scope.

(** ** exp2 *)
Lemma qpow_pos_nonneg a n : (0 <= a)%Q -> (0 <= Qpower_positive a n)%Q.
Proof. intros H. apply (Qpower_pos a (Zpos n) H). Qed.
Lemma qpow_mono a b n : (0 <= a)%Q -> (a <= b)%Q -> (Qpower_positive a n <= Qpower_positive b n)%Q.
Proof.
  intros A B. induction n using Pos.peano_ind.
  - exact B.
  - rewrite <- Pos.add_1_l, !Qpower_plus_positive. cbn [Qpower_positive pow_pos].
    apply Qmult_le_compat_nonneg; split; try assumption. apply qpow_pos_nonneg, A.
Qed.
Lemma le_exp2_mono y z x : (0 <= y)%Q -> (y <= z)%Q -> le_exp2 z x -> le_exp2 y x.
Proof.
  unfold le_exp2. intros A B H. eapply Qle_trans; [|exact H]. apply qpow_mono; assumption.
Qed.
Definition le_exp2b (y x : Q) : bool := Qle_bool (Qpower y (Zpos (Qden (Qred x)))) (pow2 (Qnum (Qred x))).
Lemma le_exp2b_ok y x : le_exp2b y x = true <-> le_exp2 y x.
Proof. apply Qle_bool_iff. Qed.
Lemma exp2_intro c x v : valid_cfg c -> 1 <= v <= maxreal c ->
  le_exp2 (value c v) x \/ v = 1 -> v = maxreal c \/ ~ le_exp2 (value c (v + 1)) x -> exp2_trunc c x v.
Proof.
  intros V B L U. vcb V. pose proof (maxreal_bounds c BN Bes) as MB.
  split; [unfold real; lia|]. split; [apply value_pos; try assumption; lia|]. split.
  - intros w Rw Pw Hw. pose proof (real_bounds c BN Bes w Rw) as Bw. apply value_le; try assumption; try lia.
    unfold real in Rw. destruct U as [->|U]; [lia|].
    destruct (Z_lt_le_dec w (v + 1)) as [|I]; [lia|exfalso]. apply U.
    apply (le_exp2_mono _ (value c w)); [| |exact Hw].
    + apply Qlt_le_weak, value_pos; try assumption; lia.
    + apply value_le; try assumption; lia.
  - destruct L as [L| ->]; [left; exact L|right].
    intros w Rw Pw. pose proof (real_bounds c BN Bes w Rw). apply value_le; try assumption; try lia.
    apply (value_pos_inv c BN Bes w); assumption.
Qed.

Definition exp2_spec8 (v r : Z) : bool :=
  (1 <=? r) && (r <=? 127) && (le_exp2b (iv8 r # 64) (s8 v # 64) || (r =? 1)) &&
  ((r =? 127) || negb (le_exp2b (iv8 (r + 1) # 64) (s8 v # 64))).
Lemma chk8_exp2 : forallb (fun v => on_ok (t8_exp2 v) (exp2_spec8 v)) (zseq (-127) 255) = true.
Proof. vm_compute. reflexivity. Qed.
Lemma le_exp2_comp y y' x x' : (y == y')%Q -> (x == x')%Q -> le_exp2 y x <-> le_exp2 y' x'.
Proof.
  intros Y X. unfold le_exp2. rewrite (Qred_complete x x' X). rewrite Y. reflexivity.
Qed.
Lemma t8_exp2_trunc v : real p8 v -> exists r, t8_exp2 v = Ok r /\ exp2_trunc p8 (value p8 v) r.
Proof.
  intros R. destruct (real8 v R) as (_ & _ & B).
  pose proof (zall _ _ _ chk8_exp2 v ltac:(lia)) as G. cbv beta in G.
  apply on_ok_elim in G. destruct G as (r & E & G). exists r. split; [exact E|].
  unfold exp2_spec8 in G. repeat rewrite andb_true_iff in G. destruct G as [[[G1 G2] G3] G4].
  apply Z.leb_le in G1, G2. apply orb_true_iff in G3, G4.
  assert (VX : (value p8 v == s8 v # 64)%Q) by (apply (sv_ok p8 64 iv8 valid_p8 iv8_ok); exact R).
  apply exp2_intro; [exact valid_p8|exact (conj G1 G2)| |].
  - destruct G3 as [G3|G3]; [left|right; apply Z.eqb_eq; exact G3].
    apply le_exp2b_ok in G3. apply (le_exp2_comp _ _ _ _ (iv8_ok r (conj G1 G2)) VX). exact G3.
  - destruct (Z.eq_dec r 127) as [->|N]; [left; reflexivity|right].
    destruct G4 as [G4|G4]; [apply Z.eqb_eq in G4; contradiction|]. apply negb_true_iff in G4.
    intros H. apply (le_exp2_comp _ _ _ _ (iv8_ok (r + 1) ltac:(change (maxreal p8) with 127; lia)) VX) in H.
    apply le_exp2b_ok in H. congruence.
Qed.

(** posit12: 2^(-2^40) is positive but the entry is 0. *)
Lemma t12_exp2_refuted : exists v, real p12 v /\ t12_exp2 v = Ok 0 /\ ~ exp2_trunc p12 (value p12 v) 0.
Proof.
  exists (-2047). split; [unfold real; cbn; lia|]. split; [vm_compute; reflexivity|].
  intros [_ [P _]]. vm_compute in P. discriminate.
Qed.

(** ** posit12 tables *)
Definition iv12_trie : trie := Eval vm_compute in tmake (fun v => Qnum (Qred (value p12 v * pow2 40))) 2047.
Definition iv12 : Z -> Z := tread iv12_trie.
Definition S12 : positive := Eval vm_compute in (2 ^ 40)%positive.
Lemma iv12_ok v : 1 <= v <= maxreal p12 -> (value p12 v == iv12 v # S12)%Q.
Proof.
  intros B. apply Qeq_bool_eq. revert v B.
  assert (H : forallb (fun v => Qeq_bool (value p12 v) (iv12 v # S12)) (zseq 1 2047) = true) by (vm_compute; reflexivity).
  intros v B. apply (zall _ _ _ H). change (maxreal p12) with 2047 in B. lia.
Qed.
Definition rz12 := rzb p12 S12 iv12.
Definition s12 := sv iv12.
Definition inv_spec12 v r : bool :=
  if v =? 0 then r =? 0 else let d := s12 v in negb (d =? 0) && rz12 (Zpos S12 * Z.sgn d) (Z.abs d) r.
Definition square_spec12 v r : bool := rz12 (s12 v * s12 v) (Zpos S12 * Zpos S12) r.
Definition chk12u (f : Z -> res Z) (spec : Z -> Z -> bool) : bool :=
  forallb (fun v => on_ok (f v) (spec v)) (zseq (-2047) 4095).
Lemma chk12_inv : chk12u t12_inv inv_spec12 = true.
Proof. vm_compute. reflexivity. Qed.
Lemma chk12_square : chk12u t12_square square_spec12 = true.
Proof. vm_compute. reflexivity. Qed.
Lemma chk12_elim f spec : chk12u f spec = true -> forall v, real p12 v -> exists r, f v = Ok r /\ spec v r = true.
Proof. intros H v B. unfold real in B. cbn in B. apply on_ok_elim, (zall _ _ _ H v). lia. Qed.

Lemma t12_inv_rounds v : real p12 v -> v <> 0 -> exists r, t12_inv v = Ok r /\ rounds_tz p12 (/ value p12 v) r.
Proof.
  intros A N0. destruct (chk12_elim _ _ chk12_inv v A) as (r & E & H). exists r. split; [exact E|].
  unfold inv_spec12 in H. replace (v =? 0) with false in H by (symmetry; apply Z.eqb_neq; lia).
  apply andb_true_iff in H. destruct H as [D H]. apply negb_true_iff, Z.eqb_neq in D.
  apply (rzb_ok p12 S12 iv12 valid_p12 iv12_ok _ (Zpos S12 * Z.sgn (s12 v)) (Z.abs (s12 v))); [lia| |exact H].
  apply (inv_frac p12 S12 iv12 valid_p12 iv12_ok); assumption.
Qed.
Lemma t12_square_rounds v : real p12 v -> exists r, t12_square v = Ok r /\ rounds_tz p12 (value p12 v * value p12 v) r.
Proof.
  intros A. destruct (chk12_elim _ _ chk12_square v A) as (r & E & H). exists r. split; [exact E|].
  unfold square_spec12 in H.
  apply (rzb_ok p12 S12 iv12 valid_p12 iv12_ok _ (s12 v * s12 v) (Zpos S12 * Zpos S12)); [lia| |exact H].
  apply (mul_frac p12 S12 iv12 valid_p12 iv12_ok); assumption.
Qed.
Lemma t12_specials : t12_inv 0 = Ok 0 /\ t12_inv (exceptional p12) = Ok (exceptional p12) /\
  t12_square (exceptional p12) = Ok (exceptional p12) /\ t12_exp2 (exceptional p12) = Ok (exceptional p12) /\
  t12_neg (exceptional p12) = 2 ^ 11.
Proof. vm_compute. tauto. Qed.

Lemma chk12_float : forallb (fun v => on_ok (t12_to_float v) (fun b =>
  (0 <=? b) && (b <? 2 ^ 32) && fin_is 8 23 b (value p12 v) && same_res (t12_of_float b) (Ok v))) (zseq (-2047) 4095) = true.
Proof. vm_compute. reflexivity. Qed.
Lemma t12_float v : real p12 v -> exists b x, t12_to_float v = Ok b /\ 0 <= b < 2 ^ 32 /\
  ieee_val 8 23 b = FinVal x /\ (x == value p12 v)%Q /\ t12_of_float b = Ok v.
Proof.
  intros R. unfold real in R. cbn in R.
  pose proof (zall _ _ _ chk12_float v ltac:(lia)) as G. cbv beta in G.
  apply on_ok_elim in G. destruct G as (b & E & G). repeat rewrite andb_true_iff in G.
  destruct G as [[[G1 G2] G3] G4]. apply fin_is_ok in G3. destruct G3 as (x & X & XE).
  exists b, x. split; [exact E|]. split; [lia|]. split; [exact X|]. split; [exact XE|].
  apply same_res_eq, G4.
Qed.
Lemma t12_float_nan : exists b, t12_to_float (exceptional p12) = Ok b /\ ieee_val 8 23 b = NaNVal /\
  t12_of_float b = Ok (exceptional p12).
Proof. exists 0x7fc00000. vm_compute. auto. Qed.
