(** The table loaded from the listing. *)
From Coq Require Import ZArith QArith Qabs Bool List String Ascii Sorted Lia Lqa.
From Verif Require Import Res CInt Traits Unpacked Cfg Spec SpecFloat SpecAny Posit FloatOps AnyFloat Asimd Soft ListP Dump SpecDump QPow Core Arith SpecLemmas DecodeProof EncodeProof UOps UAdd Ops
  Final1 Final4 Conv1 Conv5 FloatProof PositFProof PositFProof2 AnyProof AnyProof2 AnyProof3 SoftProof ListProof DumpProof DumpProof2.
Import ListNotations.
Open Scope Z_scope.

Lemma zup_nth n : forall a i, (i < n)%nat -> nth_error (zup a n) i = Some (a + Z.of_nat i).
Proof.
  induction n as [|n IH]; intros a i L; [lia|]. destruct i as [|i]; cbn [zup nth_error]; [f_equal; lia|]. rewrite IH by lia. f_equal. lia.
Qed.
Lemma zup_len n : forall a, List.length (zup a n) = n. Proof. induction n as [|n IH]; intros a; [reflexivity|]. cbn [zup List.length]. rewrite IH. reflexivity. Qed.

(** Neighbouring posits. *)
Lemma pdec_step N p : 3 <= N -> 1 <= p -> p + 1 < 2 ^ (N - 1) -> pdec N (p + 1) <= pdec N p + 2 ^ (N - 3).
Proof.
  intros HN P1 P2. destruct (reg_spec N HN p ltac:(lia)) as [R B]. set (k := reg N p) in *.
  pow_pos 2 (N - 3).
  assert (K : k <> N - 2).
  { intros E. rewrite E in B. rewrite base_last in B by assumption. lia. }
  assert (R' : inreg N (k + 1)) by (unfold inreg in *; lia).
  pose proof (base_lt N HN k (k + 1) R R' ltac:(lia)) as BL.
  assert (YD : ((k + 1) * 2 ^ (N - 3)) / 2 ^ (N - 3) = k + 1) by (apply Z.div_mul; lia).
  assert (YM : ((k + 1) * 2 ^ (N - 3)) mod 2 ^ (N - 3) = 0) by (apply Z.mod_mul; lia).
  assert (Y : yrange N ((k + 1) * 2 ^ (N - 3))) by (unfold yrange; rewrite YD; exact R').
  assert (PK : ppk N ((k + 1) * 2 ^ (N - 3)) = base N (k + 1)) by (unfold ppk; rewrite YD, YM, Zdiv_0_l; lia).
  assert (L : pdec N (p + 1) <= (k + 1) * 2 ^ (N - 3)) by (apply (galois N HN (p + 1)); [lia|exact Y|rewrite PK; lia]).
  pose proof (rem_bound N HN k (p - base N k) R ltac:(lia)) as T. unfold pdec at 2. fold k. lia.
Qed.

Section c.
Context (c : cfg).
Hypothesis V : valid_cfg c.
Hypothesis FC : float_covers c 11 52.

(** Posits as dyadic numbers, whatever the fraction type. *)
Lemma dyadic v : real c v -> v <> 0 -> exists n e m, (value c v == sgq n (dy m (e - gran c)))%Q /\
  2 ^ gran c <= m < 2 ^ (gran c + 1) /\ - emax c <= e <= emax c /\ scale (value c v) e.
Proof using V FC.
  intros R NZ. destruct c as [H N es F sp]. pose proof (real_dy 11 52 (Cfg H N es 64 sp)) as D.
  apply D; try assumption; [|cbn [cF]; lia]. destruct V as [A B C D' E G I]. split; try assumption. right; right; right. reflexivity.
Qed.
Lemma grid v : real c v -> exists z, (value c v == dy z (- emax c - gran c))%Q.
Proof using V FC.
  intros R. destruct c as [H N es F sp]. pose proof (real_grid 11 52 (Cfg H N es 64 sp)) as D.
  apply D; try assumption; [|cbn [cF]; lia]. destruct V as [A B C D' E G I]. split; try assumption. right; right; right. reflexivity.
Qed.
Lemma value_small v : real c v -> (Qabs (value c v) < pow2 (emax c + 1))%Q.
Proof using V FC.
  intros R. destruct (Z.eq_dec v 0) as [->|NZ]; [change (value c 0) with 0%Q; apply pow2_pos|].
  destruct (dyadic v R NZ) as (n & e & m & _ & _ & E & S1 & S2). eapply Qlt_le_trans; [exact S2|]. apply pow2_le. lia.
Qed.
Lemma emax_bound : 0 < emax c <= 1022 /\ 0 <= gran c <= 52.
Proof using V FC. vcb V. unfold float_covers in FC. unfold emax, gran. change (2 ^ (11 - 1) - 2) with 1022 in FC. pow_pos 2 (ces c). nia. Qed.

(** Exponents of neighbours. *)
Lemma two_steps p : 1 <= p -> p + 2 < 2 ^ (cN c - 1) -> exists e m m', (value c p == dy m (e - gran c))%Q /\ (value c (p + 2) == dy m' (e - gran c))%Q /\
  0 <= m <= m' /\ m' < 2 ^ (gran c + 1 + 2 * 2 ^ ces c) /\ - emax c <= e.
Proof using V.
  intros P1 P2. vcb V. pose proof (gran_nonneg c BN Bes) as G.
  pose proof (value_pos_lval c BN Bes p ltac:(lia)) as VP. pose proof (value_pos_lval c BN Bes (p + 2) ltac:(lia)) as VQ.
  pose proof (pdec_le (cN c) BN 1 p ltac:(lia) ltac:(lia) ltac:(lia)) as PF. rewrite pdec_first in PF by assumption.
  pose proof (pdec_step (cN c) p BN ltac:(lia) ltac:(lia)) as S1. pose proof (pdec_step (cN c) (p + 1) BN ltac:(lia) ltac:(lia)) as S2. replace (p + 1 + 1) with (p + 2) in S2 by lia.
  pose proof (pdec_lt (cN c) BN p (p + 2) ltac:(lia) ltac:(lia) ltac:(lia)) as L.
  set (y := pdec (cN c) p) in *. set (z := pdec (cN c) (p + 2)) in *. clearbody y z. set (g := gran c) in *.
  assert (E : 2 ^ (cN c - 3) = 2 ^ ces c * 2 ^ g) by (rewrite <- Z.pow_add_r by lia; f_equal; unfold g, gran; lia). clearbody g.
  pow_pos 2 g. pow_pos 2 (ces c). set (q := 2 ^ ces c) in *.
  pose proof (Z.mod_pos_bound y (2 ^ g) ltac:(lia)). pose proof (Z.mod_pos_bound z (2 ^ g) ltac:(lia)).
  assert (D1 : y / 2 ^ g <= z / 2 ^ g) by (apply Z.div_le_mono; lia).
  assert (D2 : z / 2 ^ g <= y / 2 ^ g + 2 * q) by (rewrite <- Z.div_add by lia; apply Z.div_le_mono; nia).
  set (d := z / 2 ^ g - y / 2 ^ g) in *.
  pow_pos 2 d.
  exists (y / 2 ^ g), (2 ^ g + y mod 2 ^ g), ((2 ^ g + z mod 2 ^ g) * 2 ^ d). split; [rewrite VP; reflexivity|].
  assert (EV : (lval g z == dy ((2 ^ g + z mod 2 ^ g) * 2 ^ d) (y / 2 ^ g - g))%Q).
  { rewrite dy_pow by lia. unfold lval. replace (y / 2 ^ g - g + d) with (z / 2 ^ g - g) by lia. reflexivity. }
  split; [rewrite VQ; exact EV|]. split; [|split].
  - split; [lia|]. destruct (Z_le_gt_dec (2 ^ g + y mod 2 ^ g) ((2 ^ g + z mod 2 ^ g) * 2 ^ d)) as [|GT]; [assumption|exfalso].
    assert (D : (lval g z < lval g y)%Q).
    { rewrite EV. apply dy_lt. lia. }
    pose proof (lval_lt g y z G L). lra.
  - replace (g + 1 + 2 * q) with ((g + 1) + 2 * q) by lia. rewrite (Z.pow_add_r 2 (g + 1)) by lia. pose proof (pow2_mono d (2 * q) ltac:(lia)).
    rewrite Z.pow_add_r by lia. change (2 ^ 1) with 2. nia.
  - apply Z.div_le_lower_bound; [lia|]. unfold emax. fold q. nia.
Qed.

(** The distance of the neighbours of a posit is a double, and so is its half. *)
Definition narrow : Prop := cN c - 2 - ces c + 2 * 2 ^ ces c <= 53.
Lemma diff_pos p : narrow -> 1 <= p -> real c (p + 2) -> is_float 11 52 (value c (p + 2) - value c p) /\ is_float 11 52 ((value c (p + 2) - value c p) / 2).
Proof using V FC.
  intros NW P R. vcb V. pose proof (maxreal_bounds c BN Bes) as MB. pose proof (value_small (p + 2) R) as VS. unfold real in R. pose proof emax_bound as [EB GB].
  destruct (two_steps p ltac:(lia) ltac:(lia)) as (e & m & m' & A & B & M1 & M2 & E).
  assert (G51 : gran c <= 50) by (unfold narrow in NW; unfold gran; pow_pos 2 (ces c); lia).
  assert (M3 : m' < 2 ^ 53) by (pose proof (pow2_mono (gran c + 1 + 2 * 2 ^ ces c) 53 ltac:(unfold narrow, gran in *; lia)); lia).
  assert (D : (value c (p + 2) - value c p == dy (m' - m) (e - gran c))%Q).
  { rewrite A, B. unfold dy. rewrite <- (Z.add_opp_r m' m), inject_Z_plus, inject_Z_opp. ring. }
  assert (H : (dy (m' - m) (e - gran c) / 2 == dy (m' - m) (e - gran c - 1))%Q).
  { unfold dy. rewrite <- (Z.add_opp_r (e - gran c) 1), (pow2_plus (e - gran c) (- (1))). change (pow2 (- (1))) with (1 # 2)%Q. field. }
  assert (T : (dy (m' - m) (e - gran c) < pow2 1024)%Q).
  { rewrite <- D. apply Qle_lt_trans with (Qabs (value c (p + 2))); [|eapply Qlt_le_trans; [exact VS|apply pow2_le; lia]].
    pose proof (value_pos c BN Bes p ltac:(lia)) as VP. pose proof (Qle_Qabs (value c (p + 2))). lra. }
  assert (N0 : (0 <= dy (m' - m) (e - gran c))%Q) by (unfold dy; apply Qmult_le_0_compat; [change 0%Q with (inject_Z 0); rewrite <- Zle_Qle; lia|apply Qlt_le_weak, pow2_pos]).
  split.
  - apply (is_float_comp 11 52 (dy (m' - m) (e - gran c))); [symmetry; exact D|]. apply (is_float_dy 11 52 fmt_d); [change (52 + 1) with 53; lia|cbn; lia|exact T].
  - apply (is_float_comp 11 52 (dy (m' - m) (e - gran c - 1))); [rewrite D; symmetry; exact H|]. apply (is_float_dy 11 52 fmt_d); [change (52 + 1) with 53; lia|cbn; lia|].
    change (2 ^ (11 - 1)) with 1024. rewrite <- H. unfold Qdiv. change (/ 2)%Q with (1 # 2)%Q. lra.
Qed.
Lemma value_float v : real c v -> is_float 11 52 (value c v).
Proof using V FC.
  intros R. destruct (Z.eq_dec v 0) as [->|NZ]; [change (value c 0) with 0%Q; change 0%Q with (inject_Z 0); apply int_double; lia|].
  destruct (dyadic v R NZ) as (n & e & m & A & M & E & _). pose proof emax_bound as [EB GB].
  assert (P : is_float 11 52 (dy m (e - gran c))).
  { pow_pos 2 (gran c). pose proof (pow2_mono (gran c + 1) 53 ltac:(lia)). apply (is_float_dy 11 52 fmt_d); [change (52 + 1) with 53; lia|cbn; lia|].
    apply Qlt_le_trans with (dy (2 ^ (gran c + 1)) (e - gran c)); [apply dy_lt; lia|]. unfold dy. rewrite <- pow2_Z by lia. rewrite <- pow2_plus. apply pow2_le. cbn. lia. }
  apply (is_float_comp 11 52 (sgq n (dy m (e - gran c)))); [symmetry; exact A|]. destruct n; cbn [sgq]; [apply (is_float_opp 11 52 fmt_d); exact P|exact P].
Qed.
Lemma half_float v : narrow -> real c v -> is_float 11 52 (value c v / 2).
Proof using V FC.
  intros NW R. vcb V. destruct (Z.eq_dec v 0) as [->|NZ].
  { apply (is_float_comp 11 52 (inject_Z 0)); [reflexivity|apply int_double; lia]. }
  destruct (dyadic v R NZ) as (n & e & m & A & M & E & _). pose proof emax_bound as [EB GB].
  assert (G51 : gran c <= 50) by (unfold narrow in NW; unfold gran; pow_pos 2 (ces c); lia).
  assert (H : (dy m (e - gran c) / 2 == dy m (e - gran c - 1))%Q).
  { unfold dy. rewrite <- (Z.add_opp_r (e - gran c) 1), (pow2_plus (e - gran c) (- (1))). change (pow2 (- (1))) with (1 # 2)%Q. field. }
  assert (P : is_float 11 52 (dy m (e - gran c - 1))).
  { pow_pos 2 (gran c). pose proof (pow2_mono (gran c + 1) 53 ltac:(lia)). apply (is_float_dy 11 52 fmt_d); [change (52 + 1) with 53; lia|cbn; lia|].
    apply Qlt_le_trans with (dy (2 ^ (gran c + 1)) (e - gran c - 1)); [apply dy_lt; lia|]. unfold dy. rewrite <- pow2_Z by lia. rewrite <- pow2_plus. apply pow2_le. cbn. lia. }
  apply (is_float_comp 11 52 (sgq n (dy m (e - gran c - 1)))); [|destruct n; cbn [sgq]; [apply (is_float_opp 11 52 fmt_d); exact P|exact P]].
  rewrite A. destruct n; cbn [sgq]; rewrite <- H; field.
Qed.
Lemma diff_zero : is_float 11 52 (value c 1 - value c (-1)) /\ is_float 11 52 ((value c 1 - value c (-1)) / 2).
Proof using V FC.
  vcb V. pose proof (maxreal_bounds c BN Bes) as MB. pose proof emax_bound as [EB GB]. change (-1) with (- (1)).
  assert (D : (value c 1 - value c (- (1)) == value c 1 * 2)%Q) by (rewrite (value_opp c BN Bes); ring).
  assert (R1 : real c 1) by (unfold real; lia). split.
  - destruct (dyadic 1 R1 ltac:(lia)) as (n & e & m & A & M & E & _).
    assert (Pw : is_float 11 52 (dy m (e - gran c + 1))).
    { pow_pos 2 (gran c). pose proof (pow2_mono (gran c + 1) 53 ltac:(lia)). apply (is_float_dy 11 52 fmt_d); [change (52 + 1) with 53; lia|cbn; lia|].
      apply Qlt_le_trans with (dy (2 ^ (gran c + 1)) (e - gran c + 1)); [apply dy_lt; lia|]. unfold dy. rewrite <- pow2_Z by lia. rewrite <- pow2_plus. apply pow2_le. cbn. lia. }
    assert (H : (dy m (e - gran c + 1) == dy m (e - gran c) * 2)%Q).
    { unfold dy. rewrite pow2_plus. change (pow2 1) with 2%Q. ring. }
    apply (is_float_comp 11 52 (sgq n (dy m (e - gran c + 1)))); [|destruct n; cbn [sgq]; [apply (is_float_opp 11 52 fmt_d); exact Pw|exact Pw]].
    rewrite D, A. destruct n; cbn [sgq]; rewrite H; ring.
  - apply (is_float_comp 11 52 (value c 1)); [rewrite D; field|apply value_float; exact R1].
Qed.
Lemma diff_float v : narrow -> - maxreal c < v < maxreal c ->
  is_float 11 52 (value c (v + 1) - value c (v - 1)) /\ is_float 11 52 ((value c (v + 1) - value c (v - 1)) / 2).
Proof using V FC.
  intros NW R. vcb V. pose proof (maxreal_bounds c BN Bes) as MB. pose proof emax_bound as [EB GB].
  assert (P : forall w, 0 <= w < maxreal c -> is_float 11 52 (value c (w + 1) - value c (w - 1)) /\ is_float 11 52 ((value c (w + 1) - value c (w - 1)) / 2)).
  { intros w W. destruct (Z.eq_dec w 0) as [->|N0].
    - exact diff_zero.
    - destruct (Z.eq_dec w 1) as [->|N1].
      + change (1 + 1) with 2. change (1 - 1) with 0. change (value c 0) with 0%Q. assert (R2 : real c 2) by (unfold real; lia). split.
        * apply (is_float_comp 11 52 (value c 2)); [ring|apply value_float; exact R2].
        * apply (is_float_comp 11 52 (value c 2 / 2)); [field|apply half_float; assumption].
      + replace (w + 1) with (w - 1 + 2) by lia. apply diff_pos; [exact NW|lia|unfold real; lia]. }
  destruct (Z_le_gt_dec 0 v) as [L|L]; [apply P; lia|].
  destruct (P (- v) ltac:(lia)) as [P1 P2].
  assert (D : (value c (- v + 1) - value c (- v - 1) == value c (v + 1) - value c (v - 1))%Q).
  { replace (- v + 1) with (- (v - 1)) by lia. replace (- v - 1) with (- (v + 1)) by lia. rewrite !(value_opp c BN Bes). ring. }
  split; [apply (is_float_comp 11 52 _ _ D P1)|]. apply (is_float_comp 11 52 ((value c (- v + 1) - value c (- v - 1)) / 2)); [rewrite D; reflexivity|exact P2].
Qed.
End c.
