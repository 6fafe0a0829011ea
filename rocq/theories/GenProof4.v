(** exp2 in the table programs, and the class posit10. *)
From Coq Require Import ZArith QArith Qabs Qpower Qminmax Lia Lqa Bool List.
From Verif Require Import Res CInt Bits Traits Unpacked Cfg Posit Spec SpecTab SpecFloat SpecAny SpecGen FloatOps QPow Core SpecLemmas Arith DecodeProof EncodeProof
  UOps UAdd Ops OpsAdd OpsUnary OpsUnary2 Specials Room Laws Configs Final1 Final2 Final3 Misc4 Conv1 Conv2 Conv3 Conv4 Conv5 TabProof5 FloatProof FloatProof2 PositF PositFProof PositFProof2 PositFProof3 PositFProof4
  AnyProof AnyProof2 AnyProof3 AnyProof4 AnyProof5 Tab TabProof TabProof2 TabProof3 TabProof4 Gen GenProof GenProof2 GenProof3.
Open Scope Z_scope.

Lemma exp2_order y z x : (0 < y)%Q -> (0 < z)%Q -> le_exp2 y x -> ge_exp2 z x -> (y <= z)%Q.
Proof.
  unfold le_exp2, ge_exp2. intros Y Z A B. apply Qnot_lt_le. intros L. set (d := Qden (Qred x)) in *.
  assert (S : (Qpower z (Zpos d) < Qpower y (Zpos d))%Q); [|lra]. clear A B. cbn [Qpower].
  induction d using Pos.peano_ind; [exact L|]. rewrite <- Pos.add_1_l, !Qpower_plus_positive. cbn [Qpower_positive pow_pos].
  assert (0 < Qpower_positive z d)%Q by (apply (Qpower_0_lt z (Zpos d) Z)).
  apply Qlt_trans with (z * Qpower_positive y d)%Q; [apply Qmult_lt_l; assumption|]. apply Qmult_lt_r; [lra|exact L].
Qed.
Lemma le_ge_exp2 y x : le_exp2 y x \/ ge_exp2 y x.
Proof. unfold le_exp2, ge_exp2. destruct (Qlt_le_dec (Qpower y (Zpos (Qden (Qred x)))) (pow2 (Qnum (Qred x)))); [left; lra|right; assumption]. Qed.
Lemma ge_exp2_comp y y' x x' : (y == y')%Q -> (x == x')%Q -> ge_exp2 y x -> ge_exp2 y' x'.
Proof. intros Y X. unfold ge_exp2. rewrite (Qred_complete x x' X). rewrite Y. auto. Qed.

Lemma pow2_Qpower n : (pow2 n == Qpower 2 n)%Q.
Proof.
  unfold pow2. destruct n as [|p|p]; try reflexivity.
Qed.
Lemma pow2_exp2 k x : (inject_Z k <= x)%Q -> le_exp2 (pow2 k) x.
Proof.
  intros L. unfold le_exp2. rewrite <- (Qred_correct x) in L. set (y := Qred x) in *. destruct y as [n d]. unfold Qle in L. cbn [Qnum Qden inject_Z] in *.
  rewrite Z.mul_1_r in L. rewrite pow2_Qpower, <- Qpower_mult, <- pow2_Qpower. apply pow2_le. lia.
Qed.
Lemma exp2_pow2 k x : (x <= inject_Z k)%Q -> ge_exp2 (pow2 k) x.
Proof.
  intros L. unfold ge_exp2. rewrite <- (Qred_correct x) in L. set (y := Qred x) in *. destruct y as [n d]. unfold Qle in L. cbn [Qnum Qden inject_Z] in *.
  rewrite Z.mul_1_r in L. rewrite (pow2_Qpower k), <- Qpower_mult, <- pow2_Qpower. apply pow2_le. lia.
Qed.

Section ex.
Context (c : cfg) (T : tabbed c) (ex : Z -> Z) (EX : exp2_float 8 23 ex).
Let V := tb_valid c T.

(** The entry: the float result, and its truncation. *)
Lemma entry_exp2 v : real c v -> (-126 <= value c v)%Q -> (value c v <= 127)%Q ->
  exists r y, g_exp2 c ex v = Ok r /\ (0 < y)%Q /\ down_pos c y r /\
    (forall w, is_float 8 23 w -> (0 < w)%Q -> le_exp2 w (value c v) -> (w <= y)%Q) /\
    (forall w, is_float 8 23 w -> (0 < w)%Q -> ge_exp2 w (value c v) -> (y <= w)%Q).
Proof using T EX.
  intros R L U. unfold g_exp2. destruct (float_real c T v R) as (b & x & -> & B & I & E). cbn [bind].
  pose proof (e2_range _ _ _ EX b B) as BE.
  assert (BL : forall w, is_float 8 23 w -> (0 < w)%Q -> le_exp2 w (value c v) -> ext_le (FinVal w) (ieee_val 8 23 (ex b))).
  { intros w F P H. apply (e2_below _ _ _ EX b x w B I F P). apply (le_exp2_comp w w x (value c v)); [reflexivity|exact E|exact H]. }
  assert (AB : forall w, is_float 8 23 w -> (0 < w)%Q -> ge_exp2 w (value c v) -> ext_le (ieee_val 8 23 (ex b)) (FinVal w)).
  { intros w F P H. apply (e2_above _ _ _ EX b x w B I F P). apply (ge_exp2_comp w w (value c v) x); [reflexivity|symmetry; exact E|exact H]. }
  pose proof (BL (pow2 (-126)) (is_float_pow2 8 23 fmt23 (-126) ltac:(cbn; lia)) (pow2_pos _) (pow2_exp2 (-126) _ L)) as LO.
  pose proof (AB (pow2 127) (is_float_pow2 8 23 fmt23 127 ltac:(cbn; lia)) (pow2_pos _) (exp2_pow2 127 _ U)) as HI.
  destruct (ieee_val 8 23 (ex b)) as [y|[]|] eqn:IE; cbn [ext_le] in LO, HI; try contradiction.
  assert (Y0 : (0 < y)%Q) by (pose proof (pow2_pos (-126)); lra). assert (YA : (Qabs y == y)%Q) by (apply Qabs_pos; lra).
  destruct (of_float_normal c 8 23 true (ex b) y V (tb_exp c T) fmt23 (tb_et c T) (tb_ff c T) BE IE) as [O _]; [rewrite YA; exact LO|].
  destruct O as (r & O & H).
  { right. destruct (scale_exists y ltac:(lra)) as (e & S). exists e. split; [exact S|]. apply roomy_pack_room; [exact V|exact (tb_roomy c T)]. }
  exists r, y. split; [exact O|]. split; [exact Y0|]. split; [destruct H as [[H _]|[[_ H]|[H _]]]; [lra|exact H|lra]|].
  split; [intros w F P H'; exact (BL w F P H')|intros w F P H'; exact (AB w F P H')].
Qed.
Lemma entry_exp2_near v : real c v -> (-126 <= value c v)%Q -> (value c v <= 127)%Q ->
  exists r, g_exp2 c ex v = Ok r /\ exp2_near c (value c v) r.
Proof using T EX.
  intros R L U. destruct (entry_exp2 v R L U) as (r & y & O & Y0 & (D1 & D2 & D3 & D4) & BL & AB). exists r. split; [exact O|].
  split; [exact D1|]. split; [exact D2|]. split.
  - intros w W P LT G. pose proof (AB _ (posit_is_float c T w W) P G) as H. destruct D4 as [D4|D4]; [lra|]. pose proof (D4 w W P). lra.
  - intros w W P LT G. pose proof (BL _ (posit_is_float c T w W) P G) as H. pose proof (D3 w W P H). lra.
Qed.
End ex.

(** A NaN or infinity of any payload becomes the exceptional value. *)
Lemma of_nan c (T : tabbed c) b : 0 <= b < 2 ^ (8 + 23 + 1) -> (forall x, ieee_val 8 23 b <> FinVal x) -> p_of_float c single_trait b = Ok (exceptional c).
Proof.
  intros B N. pose proof (tb_valid c T) as V. change single_trait with (any_floattrait 8 23 true).
  destruct (ieee_cases 8 23 fmt23 b B) as (_ & _ & C).
  assert (TE : fexp_of 8 23 b = 2 ^ 8 - 1) by (destruct (ieee_val 8 23 b) as [x| |]; [destruct (N x eq_refl)|tauto|tauto]).
  destruct (unpack_float 8 23 (cF c) (c_E c) true fmt23 (vc_F c V) (c_E_width c V) (et_ok c 8 23 V fmt23 (tb_et c T)) b B) as [_ U].
  unfold p_of_float. rewrite U, TE, Z.eqb_refl. cbn [bind].
  assert (I : forall n, inf_of c n = exceptional c) by (intros n; unfold inf_of; rewrite (tb_sp c T); reflexivity).
  destruct (dec_frac 23 (cF c) b =? 0).
  - etransitivity; [apply (pack_specials c _ _ _ V)|]. rewrite I. reflexivity.
  - apply (pack_specials c _ _ _ V).
Qed.
Lemma entry_exp2_nan c (T : tabbed c) ex (EX : exp2_float 8 23 ex) : g_exp2 c ex (exceptional c) = Ok (exceptional c).
Proof.
  unfold g_exp2. destruct (float_nan c T) as (b & -> & B & I). cbn [bind].
  apply (of_nan c T); [exact (e2_range _ _ _ EX b B)|]. intros x. rewrite (proj1 (e2_nan _ _ _ EX b B I)). discriminate.
Qed.

(** ** posit8: any faithful exp2 gives the shipped table *)
Definition gap8 (v r : Z) : bool := (r =? 127) ||
  (((iv8 (r + 1) <? 2 ^ 10) || (iv8 (r + 1) mod 8 =? 0)) && (0 <? iv8 (r + 1)) && (iv8 (r + 1) <? 2 ^ 13) && negb (le_exp2b (iv8 (r + 1) * (2 ^ 14 - 1) # 2 ^ 20) (s8 v # 64))).
Lemma chk8_gap : forallb (fun v => on_ok (t8_exp2 v) (gap8 v)) (zseq (-127) 255) = true.
Proof. vm_compute. reflexivity. Qed.
Lemma gap8_float m : 0 < m < 2 ^ 13 -> m < 2 ^ 10 \/ m mod 8 = 0 -> is_float 8 23 (m * (2 ^ 14 - 1) # 2 ^ 20).
Proof.
  intros M H.
  assert (E : (dy (m * (2 ^ 14 - 1)) (-20) == m * (2 ^ 14 - 1) # 2 ^ 20)%Q).
  { unfold dy, Qeq, pow2. cbn -[Z.mul]. rewrite ?Z.mul_1_r, ?Pos.mul_1_l, ?Pos.mul_1_r. reflexivity. }
  assert (LT : (dy (m * (2 ^ 14 - 1)) (-20) < pow2 128)%Q).
  { rewrite E. apply Qlt_trans with (inject_Z (2 ^ 14)); [|vm_compute; reflexivity]. unfold Qlt. cbn [Qnum Qden inject_Z]. change (Zpos (2 ^ 20)) with (2 ^ 20). change (2 ^ 14) with 16384. change (2 ^ 13) with 8192 in M. change (2 ^ 20) with 1048576. lia. }
  apply (is_float_comp 8 23 _ _ E). destruct H as [H|H].
  - apply (is_float_dy 8 23 fmt23); [change (2 ^ 14) with 16384; change (2 ^ (23 + 1)) with 16777216; change (2 ^ 10) with 1024 in H; lia|vm_compute; discriminate|exact LT].
  - assert (D : m = m / 8 * 8) by (pose proof (Z.div_mod m 8 ltac:(lia)); lia). set (n := m / 8) in *.
    assert (E' : (dy (m * (2 ^ 14 - 1)) (-20) == dy (n * (2 ^ 14 - 1)) (-17))%Q).
    { rewrite D. replace (n * 8 * (2 ^ 14 - 1)) with (n * (2 ^ 14 - 1) * 2 ^ 3) by (change (2 ^ 3) with 8; ring). rewrite dy_pow by lia. reflexivity. }
    apply (is_float_comp 8 23 _ _ (Qeq_sym _ _ E')). rewrite E' in LT.
    apply (is_float_dy 8 23 fmt23); [change (2 ^ 14) with 16384; change (2 ^ (23 + 1)) with 16777216; change (2 ^ 13) with 8192 in M; lia|vm_compute; discriminate|exact LT].
Qed.
Lemma chk8_small : forallb (fun v => Qle_bool (-126) (value p8 v) && Qle_bool (value p8 v) 127) (zseq (-127) 255) = true.
Proof. vm_compute. reflexivity. Qed.
Lemma ge_of_not y x : ~ le_exp2 y x -> ge_exp2 y x.
Proof. intros H. destruct (le_ge_exp2 y x); tauto. Qed.
Lemma gen8_exp2 ex (EX : exp2_float 8 23 ex) i : 0 <= i < 256 -> g_opexp2 p8 ex i = s8_entry Tbl8.opexp2_rows i.
Proof.
  intros I. pose proof tab_p8 as T. pose proof (tb_valid p8 T) as V. destruct (index_onto p8 T i I) as (v & P & <-).
  unfold g_opexp2. rewrite (fill1 p8 T) by assumption. rewrite s8_get1. change (t8_get1 Tbl8.opexp2_rows v) with (t8_exp2 v).
  destruct (split_pattern p8 T v P) as [R| ->]; [|rewrite (entry_exp2_nan p8 T ex EX); vm_compute; reflexivity].
  assert (VB : (-126 <= value p8 v)%Q /\ (value p8 v <= 127)%Q).
  { destruct (real8 v R) as (_ & _ & BV). pose proof (zall _ _ _ chk8_small v ltac:(lia)) as G. cbv beta in G. apply andb_true_iff in G. destruct G as [G1 G2].
    split; apply Qle_bool_iff; assumption. }
  destruct (entry_exp2 p8 T ex EX v R (proj1 VB) (proj2 VB)) as (r & y & -> & Y0 & D & BL & AB).
  destruct (t8_exp2_trunc v R) as (s & S & S1 & S2 & S3 & S4). rewrite S. f_equal.
  destruct (real8 v R) as (_ & _ & BV).
  pose proof (zall _ _ _ chk8_gap v ltac:(lia)) as G. cbv beta in G. rewrite S in G. cbn [on_ok] in G. unfold gap8 in G.
  apply (uniq p8 V y); [right; left; split; assumption|]. right. left. split; [exact Y0|].
  vcb V. pose proof (maxreal_bounds p8 BN Bes) as MB. pose proof (value_pos_inv p8 BN Bes s (real_bounds p8 BN Bes s S1) S2) as SP.
  split; [exact S1|]. split; [exact S2|]. split.
  - intros w W WP WL. pose proof (value_pos_inv p8 BN Bes w (real_bounds p8 BN Bes w W) WP) as WP'. pose proof S1 as SR. pose proof W as WR. unfold real in SR, WR. change (maxreal p8) with 127 in *.
    apply (value_le p8 BN Bes); try lia. destruct (Z.eqb_spec s 127) as [->|N]; [lia|]. cbn [orb] in G. repeat rewrite andb_true_iff in G. destruct G as [[[G1 G2] G3] G4].
    apply orb_true_iff in G1. rewrite Z.ltb_lt, Z.eqb_eq in G1. apply Z.ltb_lt in G2, G3. apply negb_true_iff in G4.
    destruct (Z_le_gt_dec w s) as [L|L]; [exact L|exfalso].
    assert (VX : (value p8 v == s8 v # 64)%Q) by (apply (sv_ok p8 64 iv8 valid_p8 iv8_ok); exact R).
    set (m := iv8 (s + 1)) in *.
    assert (FG : ge_exp2 (m * (2 ^ 14 - 1) # 2 ^ 20) (value p8 v)).
    { apply ge_of_not. intros H. apply (le_exp2_comp _ _ _ _ (Qeq_refl _) VX) in H. apply le_exp2b_ok in H. rewrite H in G4. discriminate. }
    assert (FP : (0 < m * (2 ^ 14 - 1) # 2 ^ 20)%Q) by (unfold Qlt; cbn [Qnum Qden]; change (2 ^ 14) with 16384; lia).
    pose proof (AB _ (gap8_float m (conj G2 G3) G1) FP FG) as UB.
    assert (L2 : (value p8 (s + 1) <= value p8 w)%Q) by (apply (value_le p8 BN Bes); lia).
    rewrite (iv8_ok (s + 1) ltac:(change (maxreal p8) with 127; lia)) in L2. fold m in L2.
    assert (L3 : (m * (2 ^ 14 - 1) # 2 ^ 20 < m # 64)%Q) by (unfold Qlt; cbn [Qnum Qden]; change (2 ^ 14) with 16384; change (Zpos (2 ^ 20)) with 1048576; lia).
    lra.
  - destruct S4 as [S4|S4]; [left; exact (BL _ (posit_is_float p8 T s S1) S2 S4)|right; exact S4].
Qed.

(** ** A faithful exponential exists: the largest float not above 2^x *)
Fixpoint bis (P : Z -> bool) (n : nat) (lo : Z) : Z :=
  match n with O => lo | S m => let k := lo + 2 ^ Z.of_nat m in if P k then bis P m k else bis P m lo end.
Lemma bis_ok P n lo : (forall j k, lo <= j <= k -> P k = true -> P j = true) ->
  lo <= bis P n lo < lo + 2 ^ Z.of_nat n /\ (bis P n lo = lo \/ P (bis P n lo) = true) /\ (forall k, lo <= k < lo + 2 ^ Z.of_nat n -> P k = true -> k <= bis P n lo).
Proof.
  revert lo. induction n as [|n IH]; intros lo M; cbn [bis].
  - change (2 ^ Z.of_nat 0) with 1. split; [lia|]. split; [auto|]. intros; lia.
  - rewrite Nat2Z.inj_succ, Z.pow_succ_r by lia. pow_pos 2 (Z.of_nat n). set (h := 2 ^ Z.of_nat n) in *. cbv zeta. destruct (P (lo + h)) eqn:E.
    + destruct (IH (lo + h)) as (A & B & C); [intros j k J; apply M; lia|]. fold h in A, C. split; [lia|]. split; [right; destruct B as [-> |B]; assumption|].
      intros k K PK. destruct (Z_lt_le_dec k (lo + h)); [lia|]. apply C; [lia|exact PK].
    + destruct (IH lo M) as (A & B & C). fold h in A, C. split; [lia|]. split; [exact B|].
      intros k K PK. apply C; [|exact PK]. destruct (Z_lt_le_dec k (lo + h)); [lia|]. rewrite (M (lo + h) k) in E; [discriminate|lia|exact PK].
Qed.

Definition upto (x : Q) (g : Z) : bool := (g <? 255 * 2 ^ 23) && le_exp2b (mval 8 23 g) x.
Definition ex_floor (b : Z) : Z :=
  match ieee_val 8 23 b with
  | NaNVal => f_nan 8 23
  | InfVal s => if s then 0 else f_inf 8 23 false
  | FinVal x => bis (upto x) 31 0
  end.
Lemma upto_mono x j k : 0 <= j <= k -> upto x k = true -> upto x j = true.
Proof.
  intros J H. unfold upto in *. apply andb_true_iff in H. destruct H as [H1 H2]. apply Z.ltb_lt in H1. apply le_exp2b_ok in H2. apply andb_true_iff. split; [apply Z.ltb_lt; lia|].
  apply le_exp2b_ok. apply (le_exp2_mono _ (mval 8 23 k)); [|apply (mval_le 8 23 fmt23); lia|exact H2].
  destruct (Z.eq_dec j 0) as [->|]; [rewrite (mval_0 8 23 fmt23); lra|]. apply Qlt_le_weak, (mval_pos 8 23 fmt23). lia.
Qed.
Lemma upto_floor x n g : 31 <= n -> (g = 0 \/ upto x g = true) -> 0 <= g -> (forall k, 0 <= k < 2 ^ n -> upto x k = true -> k <= g) ->
  exists y, 0 <= g < 255 * 2 ^ 23 /\ ieee_val 8 23 g = FinVal y /\ le_exp2 y x /\ (forall w, is_float 8 23 w -> (0 < w)%Q -> le_exp2 w x -> (w <= y)%Q).
Proof.
  intros N B G0 C.
  assert (G : 0 <= g < 255 * 2 ^ 23 /\ le_exp2 (mval 8 23 g) x).
  { destruct B as [->|B].
    - split; [vm_compute; split; [discriminate|reflexivity]|]. unfold le_exp2. rewrite (mval_0 8 23 fmt23). apply Qle_trans with 0%Q; [|apply Qlt_le_weak, pow2_pos].
      set (d := Qden (Qred x)). cbn [Qpower]. rewrite Qpower_positive_0. lra.
    - unfold upto in B. apply andb_true_iff in B. destruct B as [B1 B2]. apply Z.ltb_lt in B1. apply le_exp2b_ok in B2. split; [lia|exact B2]. }
  destruct G as [G1 G2]. destruct (ieee_code 8 23 fmt23 false g G1) as (y & Y & E). rewrite Z.add_0_r in Y. cbn [sgq] in E. exists y. split; [exact G1|]. split; [exact Y|].
  split; [apply (le_exp2_comp _ _ _ _ E (Qeq_refl x)); exact G2|].
  intros w F WP L. destruct (float_mval 8 23 fmt23 w F) as (sg & h & H1 & H2). change ((2 ^ 8 - 1) * 2 ^ 23) with (255 * 2 ^ 23) in H1.
  assert (sg = false) as -> by (destruct sg; [exfalso|reflexivity]; cbn [sgq] in H2; destruct (Z.eq_dec h 0) as [->|]; [rewrite (mval_0 8 23 fmt23) in H2|pose proof (mval_pos 8 23 fmt23 h ltac:(lia))]; lra). cbn [sgq] in H2.
  rewrite H2, E. apply (mval_le 8 23 fmt23); [lia|]. apply C.
  - assert (2 ^ 31 <= 2 ^ n) by (apply Z.pow_le_mono_r; lia). change (2 ^ 31) with (256 * 2 ^ 23) in *. lia.
  - unfold upto. apply andb_true_iff. split; [apply Z.ltb_lt; lia|]. apply le_exp2b_ok. apply (le_exp2_comp _ _ _ _ H2 (Qeq_refl x)). exact L.
Qed.
Lemma ex_floor_fin b x : ieee_val 8 23 b = FinVal x -> exists y, 0 <= ex_floor b < 255 * 2 ^ 23 /\ ieee_val 8 23 (ex_floor b) = FinVal y /\ le_exp2 y x /\
  (forall w, is_float 8 23 w -> (0 < w)%Q -> le_exp2 w x -> (w <= y)%Q).
Proof.
  intros I. assert (E : ex_floor b = bis (upto x) 31 0) by (unfold ex_floor; rewrite I; reflexivity). rewrite E. clear E.
  destruct (bis_ok (upto x) 31 0 (upto_mono x)) as (A & B & C). revert A B C. generalize (bis (upto x) 31 0). intros g [A _] B C.
  apply (upto_floor x 31 g); [lia|exact B|exact A|exact C].
Qed.
Lemma ex_floor_faithful : exp2_float 8 23 ex_floor.
Proof.
  pose proof ex_floor_fin as FIN.
  assert (R32 : 255 * 2 ^ 23 < 2 ^ (8 + 23 + 1)) by (vm_compute; reflexivity).
  constructor.
  - intros b B. destruct (ieee_val 8 23 b) as [x|s|] eqn:I.
    + destruct (FIN b x I) as (y & H & _). lia.
    + unfold ex_floor. rewrite I. destruct s; vm_compute; split; try discriminate; reflexivity.
    + unfold ex_floor. rewrite I. vm_compute. split; [discriminate|reflexivity].
  - intros b B I. unfold ex_floor. rewrite I. split; vm_compute; reflexivity.
  - intros b B I. unfold ex_floor. rewrite I. vm_compute. reflexivity.
  - intros b B I. unfold ex_floor. rewrite I. vm_compute. reflexivity.
  - intros b x B I. destruct (FIN b x I) as (y & Y1 & Y2 & _). rewrite Y2. cbn [ext_le].
    destruct (ieee_code 8 23 fmt23 false (ex_floor b) Y1) as (y' & Y' & E). rewrite Z.add_0_r, Y2 in Y'. injection Y' as <-. rewrite E. cbn [sgq].
    destruct (Z.eq_dec (ex_floor b) 0) as [->|N]; [rewrite (mval_0 8 23 fmt23); lra|]. apply Qlt_le_weak, (mval_pos 8 23 fmt23). lia.
  - intros b x w B I F WP L. destruct (FIN b x I) as (y & _ & -> & _ & H). cbn [ext_le]. exact (H w F WP L).
  - intros b x w B I F WP L. destruct (FIN b x I) as (y & _ & -> & H & _). cbn [ext_le]. destruct (Qlt_le_dec 0 y) as [YP|YN]; [exact (exp2_order y w x YP WP H L)|lra].
Qed.
