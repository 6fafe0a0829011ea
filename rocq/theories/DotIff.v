(** When dot runs without undefined behaviour: the bound of DotPos is exact. *)
From Coq Require Import ZArith QArith Qabs Qpower Lqa Lia Bool List.
From Verif Require Import Res CInt Bits Traits Unpacked Cfg Posit Spec SpecDot QPow Core SpecLemmas Arith DecodeProof EncodeProof UOps UAdd Room Ops OpsAdd Laws Final1 Final2 Fma Fma2 Dot Configs Examples Acc2 DotPos DotMix.
Import ListNotations.
Open Scope Z_scope.

Lemma uabs_pow2 F e f h : 0 < F -> 0 <= f < 2 ^ F -> (uabs F e f == pow2 h)%Q -> e = h /\ f = 0.
Proof.
  intros HF Hf EQ. pose proof (uabs_scale F e f ltac:(lia) Hf) as [S1 S2]. rewrite EQ in S1, S2.
  assert (e < h + 1) by (apply pow2_lt_inv; pose proof (pow2_lt h (h + 1) ltac:(lia)); lra). assert (h < e + 1) by (apply pow2_lt_inv; lra). assert (e = h) by lia. subst e. split; [reflexivity|].
  unfold uabs in EQ. assert (P : (pow2 h == dy (2 ^ F) (h - F))%Q).
  { rewrite <- (Z.mul_1_l (2 ^ F)), dy_pow by lia. replace (h - F + F) with h by lia. unfold dy. change (inject_Z 1) with 1%Q. ring. }
  rewrite P in EQ. apply dy_eq_inv in EQ. lia.
Qed.

Section Needed.
Context (c : cfg) (V : valid_cfg c) (FF : frac_fits c) (H8 : cH c = 8 -> cN c + ces c < 8 -> cF c <= 32).
Notation F := (cF c).
Notation L := ((cN c - 2) * 2 ^ ces c).
Notation top := (maxk c * 2 ^ ces c).

Lemma pow_unpack n x h : real c x -> x <> 0 -> (x <? 0) = n -> (value c x == sgq n (pow2 h))%Q -> unpack c x = Ok (U Regular n h 0).
Proof using V FF.
  intros R P SN E. pose proof V as V'. vcb V'. pose proof (is_width_pos _ (vc_F _ V)) as BF.
  destruct (unpack_real c x 0 V ltac:(lia) ltac:(unfold frac_fits in FF; rewrite <- gran_val in FF; lia) R P) as (e1 & f1 & U1 & H1 & E1 & _ & V1).
  rewrite SN in *. assert (X : (uabs F e1 f1 == pow2 h)%Q) by (rewrite uval_abs, E in V1; destruct n; cbn [sgq] in V1; lra). destruct (uabs_pow2 F e1 f1 h ltac:(lia) H1 X) as [-> ->]. exact U1.
Qed.
Lemma pow_product n x y h : real c x -> real c y -> 0 < y -> x <> 0 -> (x <? 0) = n -> (value c x == sgq n (pow2 h))%Q -> (value c y == pow2 h)%Q -> - emax c <= h <= emax c -> uprod c (x, y) = Ok (U Regular n (2 * h) 0).
Proof using V FF.
  intros Rx Ry Py Nx SN Ex Ey EB. pose proof V as V'. vcb V'. pose proof (is_width_pos _ (vc_F _ V)) as BF. destruct (emax_bound c V) as [B1 B2].
  unfold uprod. cbn [fst snd]. rewrite (pow_unpack n x h Rx Nx SN Ex). cbn [bind]. assert (Y : (y <? 0) = false) by (apply Z.ltb_ge; lia). rewrite (pow_unpack false y h Ry ltac:(lia) Y Ey). cbn [bind]. pow_pos 2 (cF c).
  destruct (u_mul_exact F (c_E c) 0 n false h h 0 0 (vc_F _ V) (c_E_width c V) ltac:(lia) ltac:(lia) ltac:(lia) ltac:(lia) ltac:(apply Z.mod_0_l; pow_pos 2 (F - 0); lia) ltac:(apply Z.mod_0_l; pow_pos 2 (F - 0); lia) ltac:(lia) ltac:(lia)) as (e & f & M & _ & Hf & _ & X).
  rewrite M. rewrite xorb_false_r. f_equal.
  assert (U0 : (uabs F h 0 == pow2 h)%Q) by (unfold uabs; rewrite Z.add_0_r, <- (Z.mul_1_l (2 ^ F)), dy_pow by lia; replace (h - F + F) with h by lia; unfold dy; change (inject_Z 1) with 1%Q; ring).
  rewrite U0, <- pow2_plus in X. destruct (uabs_pow2 F e f (h + h) ltac:(lia) Hf X) as [-> ->]. f_equal. lia.
Qed.
Lemma max_product : uprod c (maxreal c, maxreal c) = Ok (U Regular false (2 * top) 0).
Proof using V FF.
  pose proof V as V'. vcb V'. pose proof (maxreal_bounds c BN Bes). pose proof (top_L c V). apply pow_product; try (unfold real; lia); try apply (maxreal_value c V); try (apply Z.ltb_ge; lia); unfold emax; lia.
Qed.
Lemma neg_product : uprod c (- maxreal c, maxreal c) = Ok (U Regular true (2 * top) 0).
Proof using V FF.
  pose proof V as V'. vcb V'. pose proof (maxreal_bounds c BN Bes). pose proof (top_L c V). apply pow_product; try (unfold real; lia); try apply (maxreal_value c V); try (apply Z.ltb_lt; lia); try (unfold emax; lia). rewrite (value_opp c BN Bes), (maxreal_value c V). reflexivity.
Qed.
Lemma min_product : uprod c (1, 1) = Ok (U Regular false (- (2 * L)) 0).
Proof using V FF.
  pose proof V as V'. vcb V'. pose proof (maxreal_bounds c BN Bes). pose proof (top_L c V). replace (- (2 * L)) with (2 * (- (cN c - 2) * 2 ^ ces c)) by ring.
  apply pow_product; try (unfold real; lia); try (cbn [sgq]; rewrite (Acc2.one_value c V)); try reflexivity; unfold emax; lia.
Qed.

Definition many (j : Z) (s : unpacked) : Prop := exists f, s = U Regular false (2 * top + Z.log2 j) f /\ 0 <= f < 2 ^ F /\ (uabs F (2 * top + Z.log2 j) f == inject_Z j * pow2 (2 * top))%Q.
Lemma many_first : many 1 (U Regular false (2 * top) 0).
Proof using V.
  pose proof (is_width_pos _ (vc_F _ V)) as BF. exists 0. change (Z.log2 1) with 0. rewrite Z.add_0_r. split; [reflexivity|]. pow_pos 2 (cF c). split; [lia|]. unfold uabs. rewrite Z.add_0_r. rewrite <- (Z.mul_1_l (2 ^ F)), dy_pow by lia.
  replace (2 * top - F + F) with (2 * top) by lia. reflexivity.
Qed.
Lemma many_step j s : 1 <= j < 2 ^ (F - 1) -> j < 2 ^ 31 -> many j s -> exists s', u_add F (c_E c) s (U Regular false (2 * top) 0) = Ok s' /\ many (j + 1) s'.
Proof using V H8.
  intros J J31 (f & -> & Hf & X). pose proof (is_width_pos _ (vc_F _ V)) as BF. pose proof (top_L c V) as TL. pose proof (emax_bound c V) as [EB _]. pose proof (dot_E c V H8) as DE. unfold emax in EB, DE.
  pose proof (Z.log2_nonneg j) as L0. assert (L1 : Z.log2 j < F - 1) by (apply Z.log2_lt_pow2; lia). assert (L2 : Z.log2 j < 31) by (apply Z.log2_lt_pow2; lia).
  destruct many_first as (f0 & E0 & H0 & X0). change (Z.log2 1) with 0 in *. rewrite Z.add_0_r in *. injection E0 as <-.
  destruct (u_add_any F (c_E c) (2 * top) false false (2 * top + Z.log2 j) (2 * top) f 0 (vc_F _ V) (c_E_width c V) Hf H0) as (w & U & SH & EX); try lia.
  - unfold pw. lia.
  - exists j. rewrite X. reflexivity.
  - exists 1. rewrite X0. reflexivity.
  - assert (W : (wval F w == inject_Z (j + 1) * pow2 (2 * top))%Q).
    { rewrite EX by lia. rewrite !uval_abs. cbn [sgq]. rewrite X, X0, inject_Z_plus. ring. }
    clear EX. exists w. split; [exact U|]. pose proof (pow2_pos (2 * top)) as P.
    assert (J1 : (0 < inject_Z (j + 1))%Q) by (change 0%Q with (inject_Z 0); apply inj_lt; lia).
    assert (WP : (0 < inject_Z (j + 1) * pow2 (2 * top))%Q) by (apply Qmult_lt_0_compat; assumption).
    destruct SH as [->|(n & e & f1 & -> & Hf1 & _)]; [change (wval F u_zero) with 0%Q in W; lra|].
    rewrite wval_reg, uval_abs in W. pose proof (uabs_pos F e f1 ltac:(lia) ltac:(lia)) as UP.
    destruct n; cbn [sgq] in W; [exfalso; set (q := (inject_Z (j + 1) * pow2 (2 * top))%Q) in *; clearbody q; lra|].
    assert (e = 2 * top + Z.log2 (j + 1)).
    { apply (scale_unique (uabs F e f1)); unfold scale.
      - rewrite Qabs_pos by lra. apply uabs_scale; [lia|exact Hf1].
      - rewrite Qabs_pos by lra. rewrite W. rewrite (Z.add_comm (2 * top)), <- Z.add_assoc, (Z.add_comm (2 * top) 1), Z.add_assoc, !pow2_plus. pose proof (Z.log2_nonneg (j + 1)).
        pose proof (Z.log2_spec (j + 1) ltac:(lia)) as [S1 S2]. change (Z.succ (Z.log2 (j + 1))) with (Z.log2 (j + 1) + 1) in S2 || rewrite <- Z.add_1_r in S2. rewrite <- (pow2_plus (Z.log2 (j + 1)) 1). rewrite (pow2_Z (Z.log2 (j + 1))), (pow2_Z (Z.log2 (j + 1) + 1)) by lia. split.
        + apply Qmult_le_compat_r; [rewrite <- Zle_Qle; exact S1|lra].
        + apply Qmult_lt_r; [exact P|apply inj_lt; exact S2]. }
    subst e. exists f1. split; [reflexivity|]. split; [exact Hf1|exact W].
Qed.
Lemma many_acc m t : forall j s, 1 <= j -> j + Z.of_nat m <= 2 ^ (F - 1) -> j + Z.of_nat m <= 2 ^ 31 -> many j s ->
  exists s', many (j + Z.of_nat m) s' /\ dot_acc c s (repeat (maxreal c, maxreal c) m ++ t) = dot_acc c s' t.
Proof using V FF H8.
  induction m as [|m IH]; intros j s J B1 B2 M.
  - exists s. rewrite Z.add_0_r. split; [exact M|reflexivity].
  - destruct (many_step j s ltac:(lia) ltac:(lia) M) as (s1 & U & M1). destruct (IH (j + 1) s1 ltac:(lia) ltac:(lia) ltac:(lia) M1) as (s2 & M2 & D).
    exists s2. split; [replace (j + Z.of_nat (S m)) with (j + 1 + Z.of_nat m) by lia; exact M2|]. cbn [repeat app dot_acc].
    pose proof max_product as MP. unfold uprod in MP. cbn [fst snd] in MP. destruct (unpack c (maxreal c)) as [u|]; cbn [bind] in *; [|discriminate]. rewrite MP. cbn [bind]. rewrite U. cbn [bind]. exact D.
Qed.

(** Largest products followed by the smallest. *)
Definition spread (k : Z) : list (Z * Z) := repeat (maxreal c, maxreal c) (Z.to_nat k) ++ [(1, 1)].
Lemma spread_real k : dot_real c (spread k) /\ Forall (fun p => (0 <= value c (fst p) * value c (snd p))%Q) (spread k).
Proof using V.
  pose proof V as V'. vcb V'. pose proof (maxreal_bounds c BN Bes). unfold spread, dot_real. rewrite !Forall_app. split; split.
  - apply Forall_forall. intros p I. apply repeat_spec in I. subst p. cbn [fst snd]. unfold real. lia.
  - constructor; [|constructor]. cbn [fst snd]. unfold real. lia.
  - apply Forall_forall. intros p I. apply repeat_spec in I. subst p. cbn [fst snd]. apply Qmult_le_0_compat; rewrite (maxreal_value c V); apply Qlt_le_weak, pow2_pos.
  - constructor; [|constructor]. cbn [fst snd]. apply Qmult_le_0_compat; rewrite (Acc2.one_value c V); apply Qlt_le_weak, pow2_pos.
Qed.
Lemma spread_ub k : 1 <= k <= 2 ^ (F - 1) -> k <= 2 ^ 31 -> Z.max 32 F <= 2 * L + 2 * top + Z.log2 k -> p_dot c (spread k) = UB ShiftCount.
Proof using V FF H8.
  intros K K31 SP. unfold spread. replace (Z.to_nat k) with (S (Z.to_nat (k - 1))) by lia. cbn [repeat app p_dot].
  pose proof max_product as MP. unfold uprod in MP. cbn [fst snd] in MP. destruct (unpack c (maxreal c)) as [u|]; cbn [bind] in *; [|discriminate]. rewrite MP. cbn [bind].
  destruct (many_acc (Z.to_nat (k - 1)) [(1, 1)] 1 _ ltac:(lia) ltac:(lia) ltac:(lia) many_first) as (s & M & D). rewrite D. clear D MP.
  replace (1 + Z.of_nat (Z.to_nat (k - 1))) with k in M by lia. destruct M as (f & -> & Hf & _). cbn [dot_acc].
  pose proof min_product as MP. unfold uprod in MP. cbn [fst snd] in MP. destruct (unpack c 1) as [u1|]; cbn [bind] in *; [|discriminate]. rewrite MP. cbn [bind].
  pose proof (is_width_pos _ (vc_F _ V)) as BF. pose proof (top_L c V) as TL. pose proof (emax_bound c V) as [EB _]. pose proof (dot_E c V H8) as DE. unfold emax in EB, DE.
  pose proof (Z.log2_nonneg k) as L0. assert (L2 : Z.log2 k <= 31) by (change 31 with (Z.log2 (2 ^ 31)); apply Z.log2_le_mono; lia). pow_pos 2 (cF c).
  rewrite (u_add_ub F (c_E c) false false (2 * top + Z.log2 k) (- (2 * L)) f 0 (vc_F _ V) (c_E_width c V) Hf ltac:(lia)); [reflexivity|lia|lia|lia|unfold pw; lia].
Qed.

(** The largest product, the smallest, and the largest negated. *)
Definition cancelling : list (Z * Z) := [(maxreal c, maxreal c); (1, 1); (- maxreal c, maxreal c)].
Lemma cancelling_real : dot_real c cancelling.
Proof using V. pose proof V as V'. vcb V'. pose proof (maxreal_bounds c BN Bes). unfold cancelling, dot_real. repeat (constructor; [cbn [fst snd]; unfold real; lia|]). constructor. Qed.
Lemma cancelling_ub : 32 <= F -> 2 * L + 2 * top = F - 2 -> p_dot c cancelling = UB ShiftCount.
Proof using V FF H8.
  intros F32 SP. unfold cancelling. cbn [p_dot dot_acc]. pose proof (is_width_pos _ (vc_F _ V)) as BF.
  pose proof max_product as M1. pose proof min_product as M2. pose proof neg_product as M3. unfold uprod in M1, M2, M3. cbn [fst snd] in M1, M2, M3.
  destruct (unpack c (maxreal c)) as [u|]; cbn [bind] in *; [|discriminate]. rewrite M1. cbn [bind]. destruct (unpack c 1) as [u1|]; cbn [bind] in *; [|discriminate]. rewrite M2. cbn [bind].
  pose proof (top_L c V) as TL. pose proof (emax_bound c V) as [EB _]. pose proof (dot_E c V H8) as DE. unfold emax in EB, DE. pow_pos 2 (cF c).
  assert (P0 : forall h, (uabs F h 0 == pow2 h)%Q) by (intros h; unfold uabs; rewrite Z.add_0_r, <- (Z.mul_1_l (2 ^ F)), dy_pow by lia; replace (h - F + F) with h by lia; unfold dy; change (inject_Z 1) with 1%Q; ring).
  assert (E4 : 2 ^ F = 4 * 2 ^ (F - 2)) by (change 4 with (2 ^ 2); rewrite <- Z.pow_add_r by lia; f_equal; lia).
  assert (G1 : (pow2 (2 * top) == inject_Z (2 ^ (F - 2)) * pow2 (- (2 * L)))%Q) by (rewrite <- pow2_Z, <- pow2_plus by lia; replace (F - 2 + - (2 * L)) with (2 * top) by lia; reflexivity).
  destruct (u_add_any F (c_E c) (- (2 * L)) false false (2 * top) (- (2 * L)) 0 0 (vc_F _ V) (c_E_width c V) ltac:(lia) ltac:(lia)) as (w & U & SH & EX); try lia.
  { unfold pw. lia. }
  { exists (2 ^ (F - 2)). rewrite P0, G1. reflexivity. }
  { exists 1. rewrite P0. unfold dy. change (inject_Z 1) with 1%Q. unfold pow2. ring. }
  rewrite U. cbn [bind]. specialize (EX ltac:(lia)). rewrite !uval_abs in EX. cbn [sgq] in EX. rewrite !P0, G1 in EX. pose proof (pow2_pos (- (2 * L))) as PL.
  assert (F2 : (0 < inject_Z (2 ^ (F - 2)))%Q) by (change 0%Q with (inject_Z 0); apply inj_lt; lia).
  assert (PP : (0 < inject_Z (2 ^ (F - 2)) * pow2 (- (2 * L)))%Q) by (apply Qmult_lt_0_compat; assumption).
  destruct SH as [->|(m & e & f & -> & Hf & _ & He & _)]; [change (wval F u_zero) with 0%Q in EX; lra|].
  rewrite wval_reg, uval_abs in EX. pose proof (uabs_pos F e f ltac:(lia) ltac:(lia)) as UP. destruct m; cbn [sgq] in EX; [lra|].
  pose proof (uabs_scale F e f ltac:(lia) Hf) as [S1 S2]. rewrite EX, <- G1 in S1, S2. pose proof (pow2_le (- (2 * L)) (2 * top) ltac:(lia)).
  assert (E0 : e = 2 * top).
  { assert (2 * top < e + 1) by (apply pow2_lt_inv; lra). assert (pow2 e < pow2 (2 * top + 1))%Q; [|assert (e < 2 * top + 1) by (apply pow2_lt_inv; assumption); lia].
    rewrite pow2_plus. change (pow2 1) with 2%Q. pose proof (pow2_lt (- (2 * L)) (2 * top) ltac:(lia)). lra. }
  subst e. assert (F4 : f = 4).
  { unfold uabs in EX. replace (2 * top - F) with (- (2 * L) - 2) in EX by lia.
    assert (X : (dy (2 ^ F + f) (- (2 * L) - 2) == dy (2 ^ F + 4) (- (2 * L) - 2))%Q).
    { rewrite EX. replace (2 ^ F + 4) with ((2 ^ (F - 2) + 1) * 2 ^ 2) by (rewrite E4; change (2 ^ 2) with 4; ring). rewrite dy_pow by lia. replace (- (2 * L) - 2 + 2) with (- (2 * L)) by lia. unfold dy. rewrite inject_Z_plus. change (inject_Z 1) with 1%Q. unfold pow2. ring. }
    apply dy_eq_inv in X. lia. }
  subst f. destruct (unpack c (- maxreal c)) as [u2|]; cbn [bind] in *; [|discriminate]. rewrite M3. cbn [bind].
  rewrite u_add_eq; [|exact (vc_F _ V)|exact (c_E_width c V)|lia|lia|lia|lia|lia|unfold pw; lia]. cbv zeta. rewrite Z.max_id, Z.sub_diag. change (2 ^ 0) with 1. rewrite !Z.div_1_r.
  assert (A1 : addfrac false true (sig2 F 4) (sig2 F 0) = 1) by (unfold addfrac, sig2; cbn [Bool.eqb]; change (4 / 4) with 1; change (0 / 4) with 0; lia). rewrite A1.
  rewrite normalized_ub; [reflexivity|exact (vc_F _ V)|exact (c_E_width c V)|lia|change (Z.log2 1) with 0; unfold pw; lia|change (Z.log2 1) with 0; lia].
Qed.
End Needed.

Lemma dot_defined_iff c n : valid_cfg c -> exp_ok c -> frac_fits c -> roomy c -> (cH c = 8 -> cN c + ces c < 8 -> cF c <= 32) -> 2 <= n < 2 ^ 31 ->
  ((forall l, dot_real c l -> Forall (fun p => (0 <= value c (fst p) * value c (snd p))%Q) l -> Z.of_nat (length l) <= n -> exists r, p_dot c l = Ok r) <->
   2 * (cN c - 2 + maxk c) * 2 ^ ces c + Z.min (Z.log2 (n - 1)) (cF c - 1) < Z.max 32 (cF c)).
Proof.
  intros V X FF Rm H8 N2. pose proof (is_width_pos _ (vc_F _ V)) as BF. split.
  - intros A. destruct (Z_lt_le_dec (2 * (cN c - 2 + maxk c) * 2 ^ ces c + Z.min (Z.log2 (n - 1)) (cF c - 1)) (Z.max 32 (cF c))) as [?|B]; [assumption|exfalso].
    pow_pos 2 (cF c - 1). set (k := Z.min (n - 1) (2 ^ (cF c - 1))).
    assert (K : Z.log2 k = Z.min (Z.log2 (n - 1)) (cF c - 1)).
    { unfold k. destruct (Z.min_spec (n - 1) (2 ^ (cF c - 1))) as [[C ->]|[C ->]].
      - assert (Z.log2 (n - 1) < cF c - 1) by (apply Z.log2_lt_pow2; lia). lia.
      - rewrite Z.log2_pow2 by lia. apply Z.log2_le_pow2 in C; lia. }
    destruct (spread_real c V k) as [R P]. destruct (A (spread c k) R P) as [r E].
    + unfold spread. rewrite app_length, repeat_length. cbn [length]. unfold k. lia.
    + rewrite (spread_ub c V FF H8 k) in E; [discriminate|unfold k; lia|unfold k; lia|lia].
  - intros B l R P LN. pose proof (Z.log2_le_mono (Z.of_nat (length l) - 1) (n - 1) ltac:(lia)).
    destruct (dot_positive_defined c l V X FF Rm H8 R P ltac:(lia) ltac:(lia)) as (r & _ & E & _). eauto.
Qed.
(** Of any signs. *)
Lemma dot_defined_iff_any c n : valid_cfg c -> exp_ok c -> frac_fits c -> roomy c -> (cH c = 8 -> cN c + ces c < 8 -> cF c <= 32) -> 3 <= n < 2 ^ 31 ->
  ((forall l, dot_real c l -> Z.of_nat (length l) <= n -> exists r, p_dot c l = Ok r) <->
   2 * (cN c - 2 + maxk c) * 2 ^ ces c + Z.max (Z.min (Z.log2 (n - 1)) (cF c - 1)) (if cF c <? 32 then 0 else 2) < Z.max 32 (cF c)).
Proof.
  intros V X FF Rm H8 N3. pose proof (is_width_pos _ (vc_F _ V)) as BF. pose proof (Z.log2_nonneg (n - 1)). split.
  - intros A. pose proof (proj1 (dot_defined_iff c n V X FF Rm H8 ltac:(lia))) as I. specialize (I ltac:(intros l R _ LN; apply A; assumption)).
    destruct (Z.ltb_spec (cF c) 32) as [?|F32]; [lia|]. destruct (Z_lt_le_dec (2 * (cN c - 2 + maxk c) * 2 ^ ces c + 2) (cF c)) as [?|B]; [lia|exfalso].
    assert (EV : exists h, cF c = 2 * h) by (pose proof (vc_F _ V) as [W|[W|[W|W]]]; rewrite W; [exists 4|exists 8|exists 16|exists 32]; reflexivity). destruct EV as [h EV].
    assert (EQ : 2 * ((cN c - 2) * 2 ^ ces c) + 2 * (maxk c * 2 ^ ces c) = cF c - 2) by (replace (2 * (cN c - 2 + maxk c) * 2 ^ ces c) with (2 * ((cN c - 2 + maxk c) * 2 ^ ces c)) in * by ring; lia).
    destruct (A (cancelling c) (cancelling_real c V)) as [r E]; [cbn [cancelling length]; lia|]. rewrite (cancelling_ub c V FF H8 F32 EQ) in E. discriminate.
  - intros B l R LN. pose proof (Z.log2_le_mono (Z.of_nat (length l) - 1) (n - 1) ltac:(lia)).
    destruct (dot_mixed c l V X FF Rm H8 R ltac:(lia)) as (r & _ & E & _); [|eauto]. destruct (Z.ltb_spec (cF c) 32); lia.
Qed.
