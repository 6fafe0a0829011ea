(** The exp2 table of posit12. *)
From Coq Require Import ZArith QArith Qabs Qpower Qminmax Lia Lqa Bool List.
From Verif Require Import Res CInt Bits Traits Unpacked Cfg Posit Spec SpecTab SpecFloat SpecAny SpecGen FloatOps QPow Core SpecLemmas Arith DecodeProof EncodeProof
  UOps UAdd Ops OpsAdd OpsUnary OpsUnary2 Specials Room Laws Configs Final1 Final2 Final3 Misc4 Conv1 Conv2 Conv3 Conv4 Conv5 TabProof5 FloatProof FloatProof2 PositF PositFProof PositFProof2 PositFProof3 PositFProof4
  AnyProof AnyProof2 AnyProof3 AnyProof4 AnyProof5 Tab TabProof TabProof2 TabProof3 TabProof4 Gen GenProof GenProof2 GenProof3 GenProof4 Exp12a.
From Verif Require Tbl12.
Open Scope Z_scope.

(** ** Logarithms of the positive posits, as multiples of 2^-20 *)
Definition lgu_trie : trie := Eval vm_compute in tmake (fun j => up 20 ((128 + j) * 2 ^ 37)) 127.
Definition lgd_trie : trie := Eval vm_compute in tmake (fun j => dn 20 ((128 + j) * 2 ^ 37)) 127.
Lemma chk_lg : forallb (fun j => (up 20 ((128 + j) * 2 ^ 37) =? tread lgu_trie j) && (dn 20 ((128 + j) * 2 ^ 37) =? tread lgd_trie j)) (zseq 1 127) = true.
Proof. vm_compute. reflexivity. Qed.
Definition D20 : positive := Eval vm_compute in (2 ^ 20)%positive.
Lemma sc_mant j : (((128 + j) * 2 ^ 37 # SC) == dy (128 + j) (-7))%Q.
Proof. unfold dy. change (pow2 (-7)) with (1 # 128). unfold Qeq, Qmult, inject_Z. cbn [Qnum Qden]. change (Zpos (1 * 128)) with 128. change (Zpos SC) with (2 ^ 37 * 128). lia. Qed.
Lemma lgu_ok j : 0 <= j < 128 -> le_exp2 (dy (128 + j) (-7)) (tread lgu_trie j # D20).
Proof.
  intros B. destruct (Z.eq_dec j 0) as [->|N].
  - assert (P : (0 < dy (128 + 0) (-7))%Q) by (vm_compute; reflexivity). apply (proj2 (le_frac _ _ _ P)). change (tread lgu_trie 0) with 0.
    assert (E : (dy (128 + 0) (-7) == 1)%Q) by (vm_compute; reflexivity). rewrite E, Qpower_1. vm_compute. discriminate.
  - pose proof (zall _ _ _ chk_lg j ltac:(lia)) as G. cbv beta in G. apply andb_true_iff in G. destruct G as [G _]. apply Z.eqb_eq in G. rewrite <- G.
    apply (le_exp2_comp _ _ _ _ (sc_mant j) (Qeq_refl _)). apply (up_ok 20). unfold SC. change (2 ^ 37) with 137438953472. lia.
Qed.
Lemma lgd_ok j : 0 <= j < 128 -> ge_exp2 (dy (128 + j) (-7)) (tread lgd_trie j # D20).
Proof.
  intros B. destruct (Z.eq_dec j 0) as [->|N].
  - assert (P : (0 < dy (128 + 0) (-7))%Q) by (vm_compute; reflexivity). apply (proj2 (ge_frac _ _ _ P)). change (tread lgd_trie 0) with 0.
    assert (E : (dy (128 + 0) (-7) == 1)%Q) by (vm_compute; reflexivity). rewrite E, Qpower_1. vm_compute. discriminate.
  - pose proof (zall _ _ _ chk_lg j ltac:(lia)) as G. cbv beta in G. apply andb_true_iff in G. destruct G as [_ G]. apply Z.eqb_eq in G. rewrite <- G.
    apply (ge_exp2_comp _ _ _ _ (sc_mant j) (Qeq_refl _)). apply (dn_ok 20). unfold SC. change (2 ^ 37) with 137438953472. lia.
Qed.

(** Exponent and fraction of a positive posit. *)
Definition e12 (r : Z) : Z := Z.log2 (iv12 r).
Definition j12 (r : Z) : Z := iv12 r * 128 / 2 ^ e12 r - 128.
Lemma chk_ej : forallb (fun r => (0 <=? j12 r) && (j12 r <? 128) && (0 <=? e12 r) && (e12 r <=? 80) && (iv12 r * 128 =? (128 + j12 r) * 2 ^ e12 r)) (zseq 1 2047) = true.
Proof. vm_compute. reflexivity. Qed.
Lemma mant12 r : 1 <= r <= maxreal p12 -> 0 <= j12 r < 128 /\ 0 <= e12 r <= 80 /\ (value p12 r == dy (128 + j12 r) (-7) * pow2 (e12 r - 40))%Q.
Proof.
  intros B. pose proof B as B'. change (maxreal p12) with 2047 in B'. pose proof (zall _ _ _ chk_ej r ltac:(lia)) as G. cbv beta in G. repeat rewrite andb_true_iff in G.
  destruct G as [[[[G1 G2] G3] G4] G5]. split; [lia|]. split; [lia|]. apply Z.eqb_eq in G5. apply Z.leb_le in G3.
  rewrite (iv12_ok r B). set (e := e12 r) in *. set (j := j12 r) in *. set (m := iv12 r) in *. clearbody e j m.
  assert (E1 : (m # S12 == dy m (-40))%Q) by (unfold dy; change (pow2 (-40)) with (1 # S12); unfold Qeq, Qmult, inject_Z; cbn [Qnum Qden]; rewrite Pos.mul_1_l; lia). rewrite E1.
  assert (E2 : (dy (128 + j) (-7) * pow2 (e - 40) == dy ((128 + j) * 2 ^ e) (-47))%Q).
  { rewrite dy_pow by exact G3. unfold dy. rewrite <- Qmult_assoc, <- pow2_plus. replace (-7 + (e - 40)) with (-47 + e) by lia. reflexivity. }
  rewrite E2, <- G5. change 128 with (2 ^ 7). rewrite dy_pow by lia. reflexivity.
Qed.
Definition up12_trie : trie := Eval vm_compute in tmake (fun r => tread lgu_trie (j12 r) + (e12 r - 40) * 2 ^ 20) 2047.
Definition lo12_trie : trie := Eval vm_compute in tmake (fun r => tread lgd_trie (j12 r) + (e12 r - 40) * 2 ^ 20) 2047.
Definition up12 := tread up12_trie.
Definition lo12 := tread lo12_trie.
Lemma chk_log : forallb (fun r => (up12 r =? tread lgu_trie (j12 r) + (e12 r - 40) * 2 ^ 20) && (lo12 r =? tread lgd_trie (j12 r) + (e12 r - 40) * 2 ^ 20)) (zseq 1 2047) = true.
Proof. vm_compute. reflexivity. Qed.
Lemma dy_mant_pos j e : 0 <= j -> (0 < dy (128 + j) e)%Q. Proof. intros. apply dy_pos. lia. Qed.
Lemma up12_ok r : 1 <= r <= maxreal p12 -> le_exp2 (value p12 r) (up12 r # D20).
Proof.
  intros B. destruct (mant12 r B) as (J & _ & E). change (maxreal p12) with 2047 in B. pose proof (zall _ _ _ chk_log r ltac:(lia)) as G. cbv beta in G. apply andb_true_iff in G. destruct G as [G _]. apply Z.eqb_eq in G.
  apply (le_exp2_comp _ _ _ _ E (Qeq_refl _)). rewrite G. change (2 ^ 20) with (Zpos D20). apply le_exp2_shift; [apply dy_mant_pos; lia|]. apply lgu_ok. exact J.
Qed.
Lemma lo12_ok r : 1 <= r <= maxreal p12 -> ge_exp2 (value p12 r) (lo12 r # D20).
Proof.
  intros B. destruct (mant12 r B) as (J & _ & E). change (maxreal p12) with 2047 in B. pose proof (zall _ _ _ chk_log r ltac:(lia)) as G. cbv beta in G. apply andb_true_iff in G. destruct G as [_ G]. apply Z.eqb_eq in G.
  apply (ge_exp2_comp _ _ _ _ (Qeq_sym _ _ E) (Qeq_refl _)). rewrite G. change (2 ^ 20) with (Zpos D20). apply ge_exp2_shift; [apply dy_mant_pos; lia|]. apply lgd_ok. exact J.
Qed.

Lemma near_intro c x v : valid_cfg c -> 1 <= v <= maxreal c ->
  v = 1 \/ ~ ge_exp2 (value c (v - 1)) x -> v = maxreal c \/ ~ le_exp2 (value c (v + 1)) x -> exp2_near c x v.
Proof.
  intros V B L U. vcb V. pose proof (maxreal_bounds c BN Bes) as MB. assert (VP : (0 < value c v)%Q) by (apply value_pos; try assumption; lia).
  split; [unfold real; lia|]. split; [exact VP|]. split.
  - intros w W WP LT G. pose proof (value_pos_inv c BN Bes w (real_bounds c BN Bes w W) WP) as WP'. unfold real in W.
    assert (w < v) by (destruct (Z_lt_le_dec w v) as [|I]; [assumption|]; pose proof (value_le c BN Bes v w ltac:(lia) I ltac:(lia)); lra).
    destruct L as [->|L]; [lia|]. apply L. apply (ge_exp2_mono (value c w)); [lra| |exact G]. apply value_le; try assumption; lia.
  - intros w W WP LT G. pose proof (value_pos_inv c BN Bes w (real_bounds c BN Bes w W) WP) as WP'. unfold real in W.
    assert (v < w) by (destruct (Z_lt_le_dec v w) as [|I]; [assumption|]; pose proof (value_le c BN Bes w v ltac:(lia) I ltac:(lia)); lra).
    destruct U as [->|U]; [lia|]. apply U. apply (le_exp2_mono _ (value c w)); [| |exact G]; [apply Qlt_le_weak, value_pos; try assumption; lia|]. apply value_le; try assumption; lia.
Qed.

(** ** The table *)
Definition exp2_spec12 (v r : Z) : bool :=
  let x := s12 v in
  if x <=? -143 * 2 ^ 40 then r =? 0
  else if 128 * 2 ^ 40 <=? x then r =? -2048
  else (-142 * 2 ^ 40 <=? x) && (x <=? 127 * 2 ^ 40) && (1 <=? r) && (r <=? 2047) && ((r =? 1) || (up12 (r - 1) * 2 ^ 20 <? x)) && ((r =? 2047) || (x <? lo12 (r + 1) * 2 ^ 20)) &&
    (if (- 2 ^ 15 <=? x) && (x <? 0) then r =? 1024 else (r =? 1) || (up12 r * 2 ^ 20 <=? x)).
Lemma chk12_exp2 : chk12u t12_exp2 exp2_spec12 = true.
Proof. vm_compute. reflexivity. Qed.
Definition S40 (z : Z) : (z # D20 == z * 2 ^ 20 # S12)%Q.
Proof. unfold Qeq, D20, S12. cbn [Qnum Qden]. change (2 ^ 20) with 1048576. lia. Qed.
Lemma s12_ok v : real p12 v -> (value p12 v == s12 v # S12)%Q.
Proof. apply (sv_ok p12 S12 iv12 valid_p12 iv12_ok). Qed.
Lemma s12_le a v : real p12 v -> (inject_Z a <= value p12 v)%Q <-> a * 2 ^ 40 <= s12 v.
Proof. intros R. rewrite (s12_ok v R). unfold Qle. cbn [Qnum Qden inject_Z]. change (Zpos S12) with (2 ^ 40). lia. Qed.
Lemma s12_ge a v : real p12 v -> (value p12 v <= inject_Z a)%Q <-> s12 v <= a * 2 ^ 40.
Proof. intros R. rewrite (s12_ok v R). unfold Qle. cbn [Qnum Qden inject_Z]. change (Zpos S12) with (2 ^ 40). lia. Qed.
Lemma t12_exp2_low v : real p12 v -> (value p12 v <= -143)%Q -> t12_exp2 v = Ok 0.
Proof.
  intros R L. apply (s12_ge (-143) v R) in L. destruct (chk12_elim _ _ chk12_exp2 v R) as (r & -> & H). unfold exp2_spec12 in H.
  rewrite (proj2 (Z.leb_le _ _) L) in H. apply Z.eqb_eq in H. subst. reflexivity.
Qed.
Lemma t12_exp2_high v : real p12 v -> (128 <= value p12 v)%Q -> t12_exp2 v = Ok (exceptional p12).
Proof.
  intros R L. apply (s12_le 128 v R) in L. destruct (chk12_elim _ _ chk12_exp2 v R) as (r & -> & H). unfold exp2_spec12 in H.
  replace (s12 v <=? -143 * 2 ^ 40) with false in H by (symmetry; apply Z.leb_gt; lia).
  rewrite (proj2 (Z.leb_le _ _) L) in H. apply Z.eqb_eq in H. subst. reflexivity.
Qed.
Lemma exp2_mid v : real p12 v -> (-143 < value p12 v)%Q -> (value p12 v < 128)%Q -> exists r, t12_exp2 v = Ok r /\ 1 <= r <= maxreal p12 /\
  (-142 <= value p12 v)%Q /\ (value p12 v <= 127)%Q /\
  exp2_near p12 (value p12 v) r /\ (if Qle_bool (-1 # 2 ^ 25) (value p12 v) && negb (Qle_bool 0 (value p12 v)) then r = 1024 else exp2_trunc p12 (value p12 v) r).
Proof.
  intros R L U. destruct (chk12_elim _ _ chk12_exp2 v R) as (r & E & H). exists r. split; [exact E|]. unfold exp2_spec12 in H. pose proof (s12_ok v R) as SV.
  replace (s12 v <=? -143 * 2 ^ 40) with false in H by (symmetry; apply Z.leb_gt, Z.nle_gt; intros Q; apply (s12_ge (-143) v R) in Q; change (inject_Z (-143)) with (-143)%Q in Q; lra).
  replace (128 * 2 ^ 40 <=? s12 v) with false in H by (symmetry; apply Z.leb_gt, Z.nle_gt; intros Q; apply (s12_le 128 v R) in Q; change (inject_Z 128) with 128%Q in Q; lra).
  repeat rewrite andb_true_iff in H. destruct H as [[[[[[H1 H2] H3] H4] H5] H6] H7]. apply Z.leb_le in H1, H2, H3, H4.
  assert (B : 1 <= r <= maxreal p12) by (change (maxreal p12) with 2047; lia). split; [exact B|].
  split; [apply (s12_le (-142) v R); exact H1|]. split; [apply (s12_ge 127 v R); exact H2|].
  assert (UP : r = maxreal p12 \/ ~ le_exp2 (value p12 (r + 1)) (value p12 v)).
  { apply orb_true_iff in H6. destruct H6 as [H6|H6]; [left; apply Z.eqb_eq; exact H6|]. destruct (Z.eq_dec r 2047) as [->|N]; [left; reflexivity|right]. apply Z.ltb_lt in H6.
    assert (B' : 1 <= r + 1 <= maxreal p12) by (change (maxreal p12) with 2047; lia).
    apply (not_le_exp2 _ (lo12 (r + 1) # D20)); [pose proof valid_p12 as V; vcb V; apply value_pos; try assumption; change (maxreal p12) with 2047 in B'; cbn; lia|exact (lo12_ok (r + 1) B')|].
    rewrite SV, S40. unfold Qlt, S12. cbn [Qnum Qden]. lia. }
  split.
  - apply near_intro; [exact valid_p12|exact B| |exact UP].
    apply orb_true_iff in H5. destruct H5 as [H5|H5]; [left; apply Z.eqb_eq; exact H5|]. destruct (Z.eq_dec r 1) as [->|N]; [left; reflexivity|right]. apply Z.ltb_lt in H5.
    assert (B' : 1 <= r - 1 <= maxreal p12) by (change (maxreal p12) with 2047; lia).
    apply (not_ge_exp2 _ (up12 (r - 1) # D20)); [pose proof valid_p12 as V; vcb V; apply value_pos; try assumption; change (maxreal p12) with 2047 in B'; cbn; lia|exact (up12_ok (r - 1) B')|].
    rewrite SV, S40. unfold Qlt, S12. cbn [Qnum Qden]. lia.
  - replace (Qle_bool (-1 # 2 ^ 25) (value p12 v) && negb (Qle_bool 0 (value p12 v))) with ((- 2 ^ 15 <=? s12 v) && (s12 v <? 0)).
    + destruct ((- 2 ^ 15 <=? s12 v) && (s12 v <? 0)); [apply Z.eqb_eq; exact H7|].
      apply exp2_intro; [exact valid_p12|exact B| |exact UP].
      apply orb_true_iff in H7. destruct H7 as [H7|H7]; [right; apply Z.eqb_eq; exact H7|left]. apply Z.leb_le in H7.
      apply (le_exp2_up _ (up12 r # D20)); [pose proof valid_p12 as V; vcb V; apply value_pos; try assumption; change (maxreal p12) with 2047 in B; cbn; lia|exact (up12_ok r B)|].
      rewrite SV, S40. unfold Qle, S12. cbn [Qnum Qden]. lia.
    + f_equal.
      * apply eq_true_iff_eq. rewrite Z.leb_le, Qle_bool_iff, SV. unfold Qle. cbn [Qnum Qden]. change (Zpos S12) with (2 ^ 40). change (Zpos (2 ^ 25)) with (2 ^ 25). change (2 ^ 40) with 1099511627776. change (2 ^ 25) with 33554432. change (2 ^ 15) with 32768. lia.
      * apply eq_true_iff_eq. rewrite negb_true_iff, Z.ltb_lt. rewrite <- not_true_iff_false, Qle_bool_iff, SV. unfold Qle. cbn [Qnum Qden]. lia.
Qed.
