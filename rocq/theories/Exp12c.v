(** exp2 of posit12 in the table program. *)
From Coq Require Import ZArith QArith Qabs Qpower Qminmax Lia Lqa Bool List.
From Verif Require Import Res CInt Bits Traits Unpacked Cfg Posit Spec SpecTab SpecFloat SpecAny SpecGen SpecExp FloatOps QPow Core SpecLemmas Arith DecodeProof EncodeProof
  UOps UAdd Ops OpsAdd OpsUnary OpsUnary2 Specials Room Laws Configs Final1 Final2 Final3 Misc4 Conv1 Conv2 Conv3 Conv4 Conv5 TabProof5 FloatProof FloatProof2 PositF PositFProof PositFProof2 PositFProof3 PositFProof4
  AnyProof AnyProof2 AnyProof3 AnyProof4 AnyProof5 Tab TabProof TabProof2 TabProof3 TabProof4 Gen GenProof GenProof2 GenProof3 GenProof4 GenProof5 GenProof6 Exp12a Exp12b.
From Verif Require Tbl12.
Open Scope Z_scope.

(** ** Powers of numbers close to 1, by squaring multiples of 2^-P *)
Fixpoint sqdn (P : positive) (k : nat) (y : Z) : Z := match k with O => y | S m => sqdn P m (y * y / Zpos P) end.
Fixpoint squp (P : positive) (k : nat) (y : Z) : Z := match k with O => y | S m => squp P m (- ((- (y * y)) / Zpos P)) end.
Lemma sqdn_ok P k : forall y, 0 <= y -> (sqdn P k y # P <= Qpower (y # P) (Zpos (p2 k)))%Q.
Proof.
  induction k as [|k IH]; intros y B; cbn [sqdn p2]; [apply Qle_refl|]. rewrite <- qpow_sq.
  assert (Q0 : 0 <= y * y / Zpos P) by (apply Z.div_pos; nia). eapply Qle_trans; [apply IH; exact Q0|]. apply qpow_mono; [unfold Qle; cbn [Qnum Qden]; lia|].
  unfold Qle, Qmult. cbn [Qnum Qden]. rewrite Pos2Z.inj_mul. pose proof (Z.mul_div_le (y * y) (Zpos P) ltac:(lia)). nia.
Qed.
Lemma squp_ok P k : forall y, 0 <= y -> (Qpower (y # P) (Zpos (p2 k)) <= squp P k y # P)%Q.
Proof.
  induction k as [|k IH]; intros y B; cbn [squp p2]; [apply Qle_refl|]. rewrite <- qpow_sq.
  assert (S2 : y * y <= - ((- (y * y)) / Zpos P) * Zpos P) by (pose proof (Z.mul_div_le (- (y * y)) (Zpos P) ltac:(lia)); lia).
  set (y2 := - ((- (y * y)) / Zpos P)) in *. clearbody y2. assert (0 <= y2) by nia.
  eapply Qle_trans; [|apply IH; assumption]. apply qpow_mono; [unfold Qle, Qmult; cbn [Qnum Qden]; nia|].
  unfold Qle, Qmult. cbn [Qnum Qden]. rewrite Pos2Z.inj_mul. nia.
Qed.
Lemma tiny22 : ge_exp2 (8388607 # 2 ^ 23) (-1 # 2 ^ 22).
Proof.
  apply ge_frac; [reflexivity|]. assert (E : (8388607 # 2 ^ 23 == 8388607 * 2 ^ 77 # 2 ^ 100)%Q) by (vm_compute; reflexivity). rewrite E.
  eapply Qle_trans; [|apply (sqdn_ok (2 ^ 100) 22); vm_compute; discriminate]. vm_compute. discriminate.
Qed.
Lemma tiny25_lo : ge_exp2 (33554431 # 2 ^ 25) (-47 # 2 ^ 30).
Proof.
  apply ge_frac; [reflexivity|]. assert (E : (33554431 # 2 ^ 25 == 33554431 * 2 ^ 75 # 2 ^ 100)%Q) by (vm_compute; reflexivity). rewrite E.
  eapply Qle_trans; [|apply (sqdn_ok (2 ^ 100) 30); vm_compute; discriminate]. vm_compute. discriminate.
Qed.
Lemma tiny25_up : le_exp2 (33554431 # 2 ^ 25) (-5 # 2 ^ 27).
Proof.
  apply le_frac; [reflexivity|]. assert (E : (33554431 # 2 ^ 25 == 33554431 * 2 ^ 75 # 2 ^ 100)%Q) by (vm_compute; reflexivity). rewrite E.
  eapply Qle_trans; [apply (squp_ok (2 ^ 100) 27); vm_compute; discriminate|]. vm_compute. discriminate.
Qed.
Lemma ge_exp2_mult y z n m d : (0 < y)%Q -> (0 < z)%Q -> ge_exp2 y (n # d) -> ge_exp2 z (m # d) -> ge_exp2 (y * z) (n + m # d).
Proof.
  intros Y Z. rewrite !ge_frac by (try apply Qmult_lt_0_compat; assumption). rewrite pow2_plus, Qmult_power. intros A B.
  apply Qmult_le_compat_nonneg; (split; [apply Qlt_le_weak, pow2_pos|assumption]).
Qed.

(** ** The float the program gets, and the posit it writes *)
Section ex.
Context (c : cfg) (T : tabbed c) (F : cF c <= 22) (ex : Z -> Z) (EX : exp2_float 8 23 ex).
Lemma entry_exp2_down v : real c v -> (inject_Z (-126 - cF c) <= value c v)%Q -> (value c v <= 127)%Q ->
  exists r b x y, g_exp2 c ex v = Ok r /\ 0 <= b < 2 ^ (8 + 23 + 1) /\ ieee_val 8 23 b = FinVal x /\ (x == value c v)%Q /\ ieee_val 8 23 (ex b) = FinVal y /\
    (0 < y)%Q /\ down_pos c y r /\
    (forall w, is_float 8 23 w -> (0 < w)%Q -> le_exp2 w (value c v) -> (w <= y)%Q) /\
    (forall w, is_float 8 23 w -> (0 < w)%Q -> ge_exp2 w (value c v) -> (y <= w)%Q).
Proof using T F EX.
  intros R L U. unfold g_exp2. destruct (float_real c T v R) as (b & x & -> & B & I & E). cbn [bind].
  pose proof (e2_range _ _ _ EX b B) as BE. pose proof (entry_reads c T F (ex b) BE) as RD. pose proof (tb_F c T) as F7.
  assert (BL : forall w, is_float 8 23 w -> (0 < w)%Q -> le_exp2 w (value c v) -> ext_le (FinVal w) (ieee_val 8 23 (ex b))).
  { intros w W P H. apply (e2_below _ _ _ EX b x w B I W P). apply (le_exp2_comp w w x (value c v)); [reflexivity|exact E|exact H]. }
  assert (AB : forall w, is_float 8 23 w -> (0 < w)%Q -> ge_exp2 w (value c v) -> ext_le (ieee_val 8 23 (ex b)) (FinVal w)).
  { intros w W P H. apply (e2_above _ _ _ EX b x w B I W P). apply (ge_exp2_comp w w (value c v) x); [reflexivity|symmetry; exact E|exact H]. }
  pose proof (BL (pow2 (-126 - cF c)) (is_float_pow2 8 23 fmt23 (-126 - cF c) ltac:(change (2 ^ (8 - 1)) with 128; lia)) (pow2_pos _) (pow2_exp2 _ _ L)) as LO.
  pose proof (AB (pow2 127) (is_float_pow2 8 23 fmt23 127 ltac:(cbn; lia)) (pow2_pos _) (exp2_pow2 127 _ U)) as HI.
  destruct (ieee_val 8 23 (ex b)) as [y|[]|] eqn:IE; cbn [ext_le] in LO, HI; try contradiction.
  cbv zeta in RD. change (2 - 2 ^ (8 - 1) - cF c) with (-126 - cF c) in RD. pose proof (pow2_pos (-126 - cF c)) as KP.
  destruct RD as [_ RD]. destruct RD as (r & O & H); [rewrite Qabs_pos by lra; exact LO|]. exists r, b, x, y. split; [exact O|]. split; [exact B|]. split; [exact I|]. split; [exact E|]. split; [exact IE|].
  split; [lra|]. split; [destruct H as [[H _]|[[_ H]|[H _]]]; [lra|exact H|lra]|]. split; [exact BL|exact AB].
Qed.
End ex.

(** The posit written is the truncation of 2^x when the float is below the posit after it. *)
Lemma down_same y x r s BLW : (0 < y)%Q -> down_pos p12 y r -> exp2_trunc p12 x s -> 1 <= s <= maxreal p12 ->
  BLW = (forall w, is_float 8 23 w -> (0 < w)%Q -> le_exp2 w x -> (w <= y)%Q) -> BLW ->
  s = maxreal p12 \/ (y < value p12 (s + 1))%Q -> r = s.
Proof.
  intros Y0 D (S1 & S2 & S3 & S4) SB -> BL G. pose proof tab_p12 as T. pose proof (tb_valid p12 T) as V.
  apply (uniq p12 V y); [right; left; split; assumption|]. right. left. split; [exact Y0|].
  vcb V. pose proof (maxreal_bounds p12 BN Bes) as MB. change (maxreal p12) with 2047 in *.
  split; [exact S1|]. split; [exact S2|]. split.
  - intros w W WP WL. pose proof (value_pos_inv p12 BN Bes w (real_bounds p12 BN Bes w W) WP) as WP'. pose proof W as WR. unfold real in WR. change (maxreal p12) with 2047 in WR.
    apply (value_le p12 BN Bes); try lia. destruct G as [->|G]; [lia|].
    destruct (Z_le_gt_dec w s) as [L|L]; [exact L|exfalso].
    assert (L2 : (value p12 (s + 1) <= value p12 w)%Q) by (apply (value_le p12 BN Bes); lia). lra.
  - destruct S4 as [S4|S4]; [left; exact (BL _ (posit_is_float p12 T s S1) S2 S4)|right; exact S4].
Qed.

(** The float just below a posit. *)
Definition below12 (r : Z) : Q := dy ((128 + j12 r) * 2 ^ 16 - 1) (e12 r - 63).
Lemma below12_ok r : 1 <= r <= maxreal p12 -> is_float 8 23 (below12 r) /\ (below12 r < value p12 r)%Q /\ (value p12 r * (8388607 # 2 ^ 23) <= below12 r)%Q.
Proof.
  intros B. destruct (mant12 r B) as (J & E & VE). unfold below12. set (j := j12 r) in *. set (e := e12 r) in *. clearbody j e.
  assert (VE' : (value p12 r == dy ((128 + j) * 2 ^ 16) (e - 63))%Q).
  { rewrite VE. rewrite dy_pow by lia. unfold dy. rewrite <- Qmult_assoc, <- pow2_plus. replace (-7 + (e - 40)) with (e - 63 + 16) by lia. reflexivity. }
  assert (LT : (dy ((128 + j) * 2 ^ 16 - 1) (e - 63) < dy ((128 + j) * 2 ^ 16) (e - 63))%Q) by (apply dy_lt; lia).
  split; [|split].
  - apply (is_float_dy 8 23 fmt23); [change (2 ^ 16) with 65536; change (2 ^ (23 + 1)) with 16777216; lia|change (2 ^ (8 - 1)) with 128; lia|].
    apply (Qlt_trans _ _ _ LT). apply Qlt_le_trans with (dy (2 ^ 24) (e - 63)); [apply dy_lt; change (2 ^ 16) with 65536; change (2 ^ 24) with 16777216; lia|].
    replace (2 ^ 24) with (1 * 2 ^ 24) by lia. rewrite dy_pow by lia. unfold dy. setoid_replace (inject_Z 1) with 1%Q by reflexivity. rewrite Qmult_1_l. apply pow2_le. change (2 ^ (8 - 1)) with 128. lia.
  - rewrite VE'. exact LT.
  - rewrite VE'. unfold dy. pose proof (pow2_pos (e - 63)) as PP. set (q := pow2 (e - 63)) in *. clearbody q.
    assert (H : (inject_Z ((128 + j) * 2 ^ 16) * (8388607 # 2 ^ 23) <= inject_Z ((128 + j) * 2 ^ 16 - 1))%Q).
    { unfold Qle, Qmult, inject_Z. cbn [Qnum Qden]. change (2 ^ 16) with 65536. change (Zpos (1 * 2 ^ 23)) with 8388608. lia. }
    setoid_replace (inject_Z ((128 + j) * 2 ^ 16) * q * (8388607 # 2 ^ 23))%Q with ((inject_Z ((128 + j) * 2 ^ 16) * (8388607 # 2 ^ 23)) * q)%Q by ring.
    apply Qmult_le_compat_r; [exact H|lra].
Qed.
Lemma below12_ge r x : 1 <= r <= maxreal p12 -> (x + (1 # 2 ^ 22) <= lo12 r # D20)%Q -> ge_exp2 (below12 r) x.
Proof.
  intros B L. destruct (below12_ok r B) as (_ & _ & H). pose proof (lo12_ok r B) as G.
  assert (VP : (0 < value p12 r)%Q) by (pose proof valid_p12 as V; vcb V; apply value_pos; try assumption; change (maxreal p12) with 2047 in B; cbn; lia).
  assert (G' : ge_exp2 (value p12 r) (lo12 r * 4 # 2 ^ 22)) by (apply (ge_exp2_comp _ _ _ _ (Qeq_refl _)) with (2 := G); unfold Qeq, D20; cbn [Qnum Qden]; change (Zpos (2 ^ 22)) with 4194304; lia).
  assert (ZP : (0 < 8388607 # 2 ^ 23)%Q) by reflexivity. pose proof (ge_exp2_mult _ _ _ _ _ VP ZP G' tiny22) as G2.
  assert (BP : (0 < value p12 r * (8388607 # 2 ^ 23))%Q) by (apply Qmult_lt_0_compat; [exact VP|reflexivity]).
  apply (ge_exp2_mono (value p12 r * (8388607 # 2 ^ 23))); [lra|exact H|].
  apply (ge_exp2_dn _ _ x BP G2). assert (E : (lo12 r * 4 + -1 # 2 ^ 22 == (lo12 r # D20) - (1 # 2 ^ 22))%Q).
  { unfold Qeq, Qminus, Qplus, Qopp, D20. cbn [Qnum Qden]. change (Zpos (2 ^ 22)) with 4194304. rewrite !Pos2Z.inj_mul. change (Zpos (2 ^ 22)) with 4194304. lia. }
  rewrite E. lra.
Qed.

(** Far from the numbers just below 0 the table is determined. *)
Definition gap12 (v r : Z) : bool :=
  let x := s12 v in
  if (x <=? -143 * 2 ^ 40) || (127 * 2 ^ 40 <? x) || ((- 2 ^ 18 <? x) && (x <? 0)) then
    negb ((- 2 ^ 18 <? x) && (x <? - 2 ^ 15)) || ((r =? 1023) && (x <=? - 3 * 2 ^ 14))
  else (r =? 2047) || (x + 2 ^ 18 <=? lo12 (r + 1) * 2 ^ 20).
Lemma chk12_gap : chk12u t12_exp2 gap12 = true.
Proof. vm_compute. reflexivity. Qed.
Definition settled (x : Q) : Prop := (x <= - 1 # 2 ^ 22)%Q \/ ((0 <= x)%Q /\ (x <= 127)%Q).
Lemma s12_cmp n v : real p12 v -> ((n # S12 <= value p12 v)%Q <-> n <= s12 v) /\ ((value p12 v <= n # S12)%Q <-> s12 v <= n).
Proof. intros R. rewrite (s12_ok v R). unfold Qle, S12. cbn [Qnum Qden]. split; lia. Qed.

Lemma gen12_mid ex (EX : exp2_float 8 23 ex) v : real p12 v -> (-143 < value p12 v)%Q -> settled (value p12 v) -> g_exp2 p12 ex v = t12_exp2 v.
Proof.
  intros R L ST. pose proof tab_p12 as T.
  assert (U : (value p12 v <= 127)%Q) by (destruct ST as [H|H]; [apply (Qle_trans _ _ _ H); vm_compute; discriminate|tauto]).
  destruct (exp2_mid v R L ltac:(lra)) as (s & S & SB & L' & _ & _ & TR).
  destruct (entry_exp2_down p12 T ltac:(cbn; lia) ex EX v R L' U) as (r & b & x & y & -> & B & I & E & IE & Y0 & D & BL & AB).
  rewrite S. f_equal.
  assert (TR' : exp2_trunc p12 (value p12 v) s).
  { destruct (Qle_bool (-1 # 2 ^ 25) (value p12 v)) eqn:Q1; [destruct (Qle_bool 0 (value p12 v)) eqn:Q2|]; try exact TR. exfalso.
    apply Qle_bool_iff in Q1. destruct ST as [H|[H _]]; [|apply Qle_bool_iff in H; congruence].
    assert ((-1 # 2 ^ 22) < (-1 # 2 ^ 25))%Q by reflexivity. lra. }
  refine (down_same y _ r s _ Y0 D TR' SB eq_refl BL _).
  destruct (chk12_elim _ _ chk12_gap v R) as (s' & S' & G). rewrite S in S'. injection S' as <-. unfold gap12 in G.
  replace ((s12 v <=? -143 * 2 ^ 40) || (127 * 2 ^ 40 <? s12 v) || ((- 2 ^ 18 <? s12 v) && (s12 v <? 0))) with false in G.
  2:{ symmetry. apply orb_false_iff. split; [apply orb_false_iff; split|].
      - apply Z.leb_gt, Z.nle_gt. intros Q. apply (s12_ge (-143) v R) in Q. change (inject_Z (-143)) with (-143)%Q in Q. lra.
      - apply Z.ltb_ge. apply (s12_ge 127 v R). exact U.
      - apply not_true_iff_false. rewrite andb_true_iff, Z.ltb_lt, Z.ltb_lt. intros [Q1 Q2]. destruct ST as [H|[H _]].
        + pose proof (proj1 (proj2 (s12_cmp (- 2 ^ 18) v R))) as K. assert (s12 v <= - 2 ^ 18); [|lia]. apply K. apply (Qle_trans _ _ _ H). vm_compute. discriminate.
        + pose proof (proj1 (proj1 (s12_cmp 0 v R))) as K. assert (0 <= s12 v); [|lia]. apply K. apply (Qle_trans _ 0); [vm_compute; discriminate|exact H]. }
  change (maxreal p12) with 2047 in *. destruct (Z.eqb_spec s 2047) as [->|N]; [left; reflexivity|right]. cbn [orb] in G. apply Z.leb_le in G.
  assert (B1 : 1 <= s + 1 <= maxreal p12) by (change (maxreal p12) with 2047; lia).
  destruct (below12_ok (s + 1) B1) as (W1 & W2 & W3).
  assert (VP : (0 < value p12 (s + 1))%Q) by (pose proof valid_p12 as V; vcb V; apply value_pos; try assumption; cbn; lia).
  assert (WP : (0 < below12 (s + 1))%Q) by (assert (0 < value p12 (s + 1) * (8388607 # 2 ^ 23))%Q by (apply Qmult_lt_0_compat; [exact VP|reflexivity]); lra).
  assert (WG : ge_exp2 (below12 (s + 1)) (value p12 v)).
  { apply below12_ge; [exact B1|]. rewrite (s12_ok v R), S40. unfold Qle, Qplus, S12. cbn [Qnum Qden]. rewrite !Pos2Z.inj_mul. change (Zpos (2 ^ 22)) with 4194304.
    change (2 ^ 20) with 1048576 in *. change (2 ^ 18) with 262144 in G. lia. }
  pose proof (AB _ W1 WP WG). lra.
Qed.
