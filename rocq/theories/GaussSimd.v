(** gauss2 over 32 lanes of posit8. *)
From Coq Require Import ZArith QArith Qabs List Bool Lia Lqa.
From Verif Require Import Res CInt Traits Unpacked Cfg Posit Configs Spec QPow Core SpecLemmas Arith Ops OpsAdd DecodeProof Laws SpecTab Tab TabProof TabProof2 TabProof3 TabProof4 Acc3
  Gen GenProof GenProof2 GenProof3 GenProof4 GenProof5 Exp12a Gauss GaussProof.
Import ListNotations.
Open Scope Z_scope.

Lemma simd_two : simd_of_int 2 = Ok (repeat 72 32).
Proof. vm_compute. reflexivity. Qed.
Lemma two_lane : real p8 72 /\ (value p8 72 == 5 # 4)%Q.
Proof. split; [unfold real; cbn; lia|vm_compute; reflexivity]. Qed.
Lemma lanes_byte f a r : lanewise1 f a r -> Forall byte r.
Proof.
  intros [L H]. apply Forall_forall. intros x I. destruct (In_nth r x 0 I) as (i & B & <-). rewrite L in B. apply H, B.
Qed.
Lemma lanes_byte2 f a b r : lanewise2 f a b r -> Forall byte r.
Proof.
  intros [L H]. apply Forall_forall. intros x I. destruct (In_nth r x 0 I) as (i & B & <-). rewrite L in B. apply H, B.
Qed.
Lemma t8_abs_real v : real p8 v -> t8_abs v = Z.abs v.
Proof.
  intros R. destruct (real8 v R) as (_ & _ & B).
  assert (H : forallb (fun v => t8_abs v =? Z.abs v) (zseq (-127) 255) = true) by (vm_compute; reflexivity).
  apply Z.eqb_eq, (zall _ _ _ H). lia.
Qed.
Lemma gs_run x mu sigma : length x = 32%nat -> length mu = 32%nat -> length sigma = 32%nat -> Forall byte x -> Forall byte mu -> Forall byte sigma ->
  (forall i, (i < 32)%nat -> real p8 (int8 (nth i x 0)) /\ real p8 (int8 (nth i mu 0)) /\ real p8 (int8 (nth i sigma 0)) /\ int8 (nth i sigma 0) <> 0) ->
  exists r, simd_gauss2 x mu sigma = Ok r /\ length r = 32%nat /\ forall i, (i < 32)%nat -> byte (nth i r 0) /\
    exists d q s h, rounds_tz p8 (value p8 (int8 (nth i x 0%Z)) + Qabs (value p8 (int8 (nth i mu 0%Z)))) d /\ rounds_tz p8 (value p8 d / value p8 (int8 (nth i sigma 0%Z))) q /\
      rounds_tz p8 (value p8 q * value p8 q) s /\ rounds_tz p8 (value p8 s / (5 # 4)) h /\ exp2_trunc p8 (value p8 h) (int8 (nth i r 0)) /\ (1 <= value p8 (int8 (nth i r 0%Z)))%Q.
Proof.
  intros LX LM LS BX BM BS HR. pose proof valid_p8 as V. pose proof V as V'. vcb V'.
  destruct (simd_sub_lanes x mu BX BM ltac:(lia)) as (d & E1 & D). pose proof (lanes_byte2 _ _ _ _ D) as BD. destruct D as [LD D].
  destruct (proj1 (proj2 (proj2 (simd_lanes d sigma BD BS ltac:(lia))))) as (q & E2 & Q). pose proof (lanes_byte2 _ _ _ _ Q) as BQ. destruct Q as [LQ Q].
  destruct (proj2 (proj2 (proj2 (proj2 (proj2 (simd_lanes q q BQ BQ eq_refl)))))) as (s & E3 & S). pose proof (lanes_byte _ _ _ S) as BSQ. destruct S as [LSQ S].
  assert (B2 : Forall byte (repeat 72 32)) by (repeat constructor; unfold byte; lia).
  destruct (proj1 (proj2 (proj2 (simd_lanes s (repeat 72 32) BSQ B2 ltac:(rewrite repeat_length; lia))))) as (h & E4 & H). pose proof (lanes_byte2 _ _ _ _ H) as BHL. destruct H as [LH H].
  assert (BN2 : Forall byte (simd_neg h)) by (apply Forall_forall; intros z I; apply in_map_iff in I; destruct I as (y & <- & Y); rewrite Forall_forall in BHL; apply simd_neg_byte, BHL, Y).
  destruct (proj1 (proj2 (proj2 (proj2 (proj2 (simd_lanes (simd_neg h) (simd_neg h) BN2 BN2 eq_refl)))))) as (r & E5 & R). destruct R as [LR R].
  exists r. split; [|split].
  - unfold simd_gauss2. rewrite E1. cbn [bind]. rewrite E2. cbn [bind]. rewrite E3. cbn [bind]. unfold simd_half. rewrite simd_two. cbn [bind]. rewrite E4. cbn [bind]. exact E5.
  - rewrite LR. unfold simd_neg. rewrite map_length. lia.
  - intros i I. destruct (HR i I) as (RX & RM & RS & NS).
    assert (LN : length (simd_neg h) = 32%nat) by (unfold simd_neg; rewrite map_length; lia).
    destruct (D i ltac:(lia)) as [_ D']. destruct (Q i ltac:(lia)) as [_ Q']. destruct (S i ltac:(lia)) as [_ S']. destruct (H i ltac:(lia)) as [_ H']. destruct (R i ltac:(lia)) as [BR R'].
    split; [exact BR|].
    rewrite (t8_abs_real _ RM) in D'. destruct (t8_add_rounds _ _ RX (real_abs p8 _ V RM)) as (d1 & F1 & T1). rewrite F1 in D'. injection D' as D'.
    pose proof (rounds_tz_real p8 BN Bes _ _ T1) as RD. rewrite <- D' in Q'. destruct (t8_div_rounds d1 _ RD RS NS) as (q1 & F2 & T2). rewrite F2 in Q'. injection Q' as Q'.
    pose proof (rounds_tz_real p8 BN Bes _ _ T2) as RQ. rewrite <- Q' in S'. destruct (t8_square_rounds q1 RQ) as (s1 & F3 & T3). rewrite F3 in S'. injection S' as S'.
    pose proof (rounds_tz_real p8 BN Bes _ _ T3) as RSQ. destruct two_lane as [R2 V2]. rewrite <- S' in H'.
    assert (N72 : int8 (nth i (repeat 72 32) 0) = 72) by (rewrite (nth_indep _ 0 72) by (rewrite repeat_length; lia); rewrite nth_repeat; reflexivity). rewrite N72 in H'.
    destruct (t8_div_rounds s1 72 RSQ R2 ltac:(lia)) as (h1 & F4 & T4). rewrite F4 in H'. injection H' as H'.
    pose proof (rounds_tz_real p8 BN Bes _ _ T4) as RH.
    assert (R0 : rounds_tz p8 0 0) by (left; split; reflexivity).
    assert (PS : 0 <= s1) by (apply (rounds_tz_mono p8 0 (value p8 q1 * value p8 q1)); try assumption; apply qsq_nonneg).
    assert (VS : (0 <= value p8 s1)%Q) by (rewrite <- (value_0 p8 BN Bes); pose proof (real_bounds p8 BN Bes _ RSQ); apply (value_le p8 BN Bes); lia).
    assert (T4' : rounds_tz p8 (value p8 s1 / (5 # 4)) h1) by (apply (rounds_tz_comp p8 BN Bes (value p8 s1 / value p8 72)); [rewrite V2; reflexivity|exact T4]).
    assert (PH : 0 <= h1) by (apply (rounds_tz_mono p8 0 (value p8 s1 / (5 # 4))); try assumption; apply Qle_shift_div_l; [reflexivity|]; lra).
    assert (NH : int8 (nth i (simd_neg h) 0) = h1).
    { unfold simd_neg. rewrite (nth_map_in _ h 0 0 i ltac:(lia)). rewrite Forall_forall in BHL.
      rewrite (proj2 (simd_neg_byte _ (BHL _ (nth_In h 0 (ltac:(lia) : (i < length h)%nat))))). rewrite <- H', (t8_abs_real h1 RH). lia. }
    rewrite NH in R'. destruct (t8_exp2_trunc h1 RH) as (r1 & F5 & T5). rewrite F5 in R'. injection R' as R'. rewrite <- R'.
    exists d1, q1, s1, h1. split; [|split; [exact T2|split; [exact T3|split; [exact T4'|split; [exact T5|]]]]].
    + apply (rounds_tz_comp p8 BN Bes _ _ d1 (Qplus_comp _ _ (Qeq_refl _) _ _ (value_abs p8 _ V RM))). exact T1.
    + destruct one8 as [RO O]. destruct T5 as (_ & _ & MR & _). rewrite <- O at 1. apply MR; [exact RO|lra|].
      assert (VH : (0 <= value p8 h1)%Q) by (rewrite <- (value_0 p8 BN Bes); pose proof (real_bounds p8 BN Bes _ RH); apply (value_le p8 BN Bes); lia).
      apply (le_exp2_up _ 0); [lra| |exact VH]. apply (le_exp2_comp _ 1 _ 0 O (Qeq_refl _)). vm_compute. discriminate.
Qed.
