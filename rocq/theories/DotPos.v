(** dot and fma over formats of small range are free of undefined behaviour. *)
From Coq Require Import ZArith QArith Qabs Qpower Lqa Lia Bool List.
From Verif Require Import Res CInt Bits Traits Unpacked Cfg Posit Spec SpecDot QPow Core SpecLemmas Arith DecodeProof EncodeProof UOps UAdd Room Ops OpsAdd Laws Final1 Final2 Fma Fma2 Dot Configs Examples Acc2 Prog3 Misc4.
Import ListNotations.
Open Scope Z_scope.

(** Unpacked numbers that are not negative, near each other. *)
Lemma u_add_pos F E ea eb fa fb : is_width F -> is_width E -> 0 <= fa < 2 ^ F -> 0 <= fb < 2 ^ F ->
  - 2 ^ (E - 1) <= ea - eb < 2 ^ (E - 1) -> - 2 ^ (E - 1) <= eb - ea < 2 ^ (E - 1) ->
  Z.max ea eb + 1 < 2 ^ (E - 1) -> - 2 ^ (E - 1) <= Z.max ea eb + 2 - F -> Z.abs (ea - eb) < pw F ->
  exists e f, u_add F E (U Regular false ea fa) (U Regular false eb fb) = Ok (U Regular false e f) /\ 0 <= f < 2 ^ F /\ Z.max ea eb <= e <= Z.max ea eb + 1 /\
    (F - 1 <= Z.abs (ea - eb) -> e = Z.max ea eb).
Proof.
  intros WF WE Ha Hb D1 D2 D3 D4 NR. pose proof (is_width_pos F WF) as BF. pose proof (is_width_pos E WE) as BE.
  rewrite u_add_eq by (assumption || lia). cbv zeta. set (M := Z.max ea eb) in *.
  assert (E4 : 2 ^ F = 4 * 2 ^ (F - 2)) by (change 4 with (2 ^ 2); rewrite <- Z.pow_add_r by lia; f_equal; lia).
  pose proof (sig2_bounds F fa WF Ha) as SA. pose proof (sig2_bounds F fb WF Hb) as SB.
  assert (DB : forall s n, 0 <= s -> 0 <= n -> 0 <= s / 2 ^ n <= s).
  { intros s n H0 H1. pow_pos 2 n. split; [apply Z.div_pos; lia|apply Z.div_le_upper_bound; nia]. }
  pose proof (DB (sig2 F fa) (M - ea) ltac:(lia) ltac:(lia)) as BA. pose proof (DB (sig2 F fb) (M - eb) ltac:(lia) ltac:(lia)) as BB.
  assert (TOP : 2 ^ (F - 2) <= sig2 F fa / 2 ^ (M - ea) \/ 2 ^ (F - 2) <= sig2 F fb / 2 ^ (M - eb)).
  { destruct (Z.max_spec ea eb) as [[_ K]|[_ K]]; unfold M; rewrite K, Z.sub_diag, Z.div_1_r; lia. }
  assert (LOST : F - 1 <= Z.abs (ea - eb) -> sig2 F fa / 2 ^ (M - ea) + sig2 F fb / 2 ^ (M - eb) < 2 ^ (F - 1)).
  { intros LD. assert (E2 : 2 ^ (F - 1) = 2 * 2 ^ (F - 2)) by (rewrite <- (Z.pow_add_r 2 1) by lia; f_equal; lia).
    assert (Q0 : forall t d, 0 <= t < 2 ^ (F - 1) -> F - 1 <= d -> t / 2 ^ d = 0) by (intros t d Ht Hd; apply Z.div_small; pose proof (Z.pow_le_mono_r 2 (F - 1) d ltac:(lia) Hd); lia).
    destruct (Z.max_spec ea eb) as [[K0 K]|[K0 K]]; unfold M; rewrite K, Z.sub_diag, Z.div_1_r; rewrite Q0 by lia; lia. }
  rewrite addneg_same. unfold addfrac. cbn [Bool.eqb]. set (A := sig2 F fa / 2 ^ (M - ea)) in *. set (B := sig2 F fb / 2 ^ (M - eb)) in *. clearbody A B. set (fr := A + B) in *.
  assert (LG : F - 2 <= Z.log2 fr) by (apply Z.log2_le_pow2; unfold fr; lia). assert (LF : Z.log2 fr < F) by (apply Z.log2_lt_pow2; unfold fr; lia).
  destruct (u_normalized_spec F E false (M + 1) fr WF WE ltac:(unfold fr; lia) ltac:(unfold pw; lia) ltac:(lia)) as [N1 [N2 N3]].
  eexists _, _. split; [exact N1|]. split; [exact N2|]. split; [lia|]. intros LD. specialize (LOST LD). assert (Z.log2 fr < F - 1) by (apply Z.log2_lt_pow2; unfold fr; lia). lia.
Qed.

Section Positive.
Context (c : cfg) (V : valid_cfg c) (FF : frac_fits c) (H8 : cH c = 8 -> cN c + ces c < 8 -> cF c <= 32).
Notation F := (cF c).
Notation L := ((cN c - 2) * 2 ^ ces c).
Notation top := (maxk c * 2 ^ ces c).

Lemma top_L : 0 <= top <= L.
Proof using V. vcb V. pow_pos 2 (ces c). unfold maxk. destruct (spec_eqb _ _); nia. Qed.
Lemma real_size v : real c v -> (Qabs (value c v) <= pow2 top)%Q /\ (v <> 0 -> (pow2 (- L) <= Qabs (value c v))%Q).
Proof using V.
  intros R. pose proof V as V'. vcb V'. pose proof (maxreal_bounds c BN Bes) as MB. unfold real in R.
  assert (P : forall w, 0 <= w <= maxreal c -> (0 <= value c w)%Q /\ (value c w <= pow2 top)%Q /\ (w <> 0 -> (pow2 (- L) <= value c w)%Q)).
  { intros w W. split; [rewrite <- (value_0 c BN Bes); apply (value_le c BN Bes); lia|]. split.
    - rewrite <- (maxreal_value c V). apply (value_le c BN Bes); lia.
    - intros NZ. replace (- L) with (- (cN c - 2) * 2 ^ ces c) by ring. rewrite <- (one_value c V). apply (value_le c BN Bes); lia. }
  destruct (Z_lt_le_dec v 0) as [N|N].
  - destruct (P (- v) ltac:(lia)) as (P0 & P1 & P2). rewrite (value_opp c BN Bes) in P0, P1, P2. rewrite Qabs_neg by lra. split; [exact P1|]. intros NZ. apply P2. lia.
  - destruct (P v ltac:(lia)) as (P0 & P1 & P2). rewrite Qabs_pos by exact P0. auto.
Qed.
Lemma product_size x y : real c x -> real c y -> (Qabs (value c x * value c y) <= pow2 (2 * top))%Q.
Proof using V.
  intros RX RY. rewrite Qabs_Qmult. replace (2 * top) with (top + top) by lia. rewrite pow2_plus. pose proof (proj1 (real_size x RX)). pose proof (proj1 (real_size y RY)).
  apply Qmult_le_compat_nonneg; split; try assumption; apply Qabs_nonneg.
Qed.

(** A term that is not negative. *)
Definition pterm (x : Q) (w : unpacked) : Prop :=
  (0 <= x)%Q /\ (x <= pow2 (2 * top))%Q /\ (w = u_zero \/ exists e f, w = U Regular false e f /\ 0 <= f < 2 ^ F /\ - (2 * L) <= e /\ (uabs F e f <= x)%Q).
Lemma pterm_prod x y : real c x -> real c y -> (0 <= value c x * value c y)%Q -> exists w, uprod c (x, y) = Ok w /\ pterm (value c x * value c y) w /\ term c (value c x * value c y) w.
Proof using V FF.
  intros RX RY P. destruct (uprod_term c V FF x y RX RY) as (w & E & T). exists w. split; [exact E|]. split; [|exact T]. pose proof (product_size x y RX RY) as S. rewrite Qabs_pos in S by exact P. split; [exact P|]. split; [exact S|].
  destruct T as [_ [[-> _]|(n & e & f & -> & Hf & He & LE & ER)]]; [left; reflexivity|right]. pose proof (is_width_pos _ (vc_F _ V)) as BF.
  assert (N : n = false).
  { destruct n; [exfalso|reflexivity]. pose proof (uabs_pos F e f ltac:(lia) ltac:(lia)) as UP. rewrite uval_abs in ER. cbn [sgq] in ER. rewrite (Qabs_pos _ P) in LE, ER. rewrite Qabs_neg in ER by lra.
    assert (pow2 (3 - F) <= 1)%Q by (change 1%Q with (pow2 0); apply pow2_le; lia). nra. }
  subst n. exists e, f. rewrite (Qabs_pos _ P) in LE. unfold emax in He. split; [reflexivity|]. split; [exact Hf|]. split; [lia|exact LE].
Qed.

Lemma exp_bound k T e f : 1 <= k -> 0 <= f < 2 ^ F -> (T <= inject_Z k * pow2 (2 * top))%Q -> (uabs F e f <= T)%Q -> e <= 2 * top + Z.log2 k.
Proof using V.
  intros K Hf TB U. pose proof (is_width_pos _ (vc_F _ V)) as BF. pose proof (Z.log2_nonneg k). apply Z.lt_succ_r. apply pow2_lt_inv. pose proof (proj1 (uabs_scale F e f ltac:(lia) Hf)) as S.
  assert (KB : (inject_Z k < pow2 (Z.log2 k + 1))%Q) by (rewrite pow2_Z by lia; apply inj_lt; apply Z.log2_spec; lia).
  replace (Z.succ (2 * top + Z.log2 k)) with (Z.log2 k + 1 + 2 * top) by lia. rewrite pow2_plus. pose proof (pow2_pos (2 * top)) as P.
  assert (inject_Z k * pow2 (2 * top) < pow2 (Z.log2 k + 1) * pow2 (2 * top))%Q by (apply Qmult_lt_r; assumption). lra.
Qed.
(** The running sum after k terms of total T. *)
Definition pinv (k : Z) (T : Q) (w : unpacked) : Prop :=
  1 <= k /\ (0 <= T)%Q /\ (T <= inject_Z k * pow2 (2 * top))%Q /\ (w = u_zero \/ exists e f, w = U Regular false e f /\ 0 <= f < 2 ^ F /\ - (2 * L) <= e <= 2 * top + F - 1 /\ (uabs F e f <= T)%Q).
Lemma pinv_comp k T T' w : (T == T')%Q -> pinv k T w -> pinv k T' w.
Proof using. intros E (A & B & C & D). split; [exact A|]. split; [lra|]. split; [lra|]. destruct D as [D|(e & f & D1 & D2 & D3 & D4)]; [left; exact D|right]. exists e, f. split; [exact D1|]. split; [exact D2|]. split; [exact D3|lra]. Qed.
Lemma pinv_first x w : pterm x w -> pinv 1 x w.
Proof using V.
  intros (A & B & C). assert (B1 : (x <= inject_Z 1 * pow2 (2 * top))%Q) by (change (inject_Z 1) with 1%Q; lra). split; [lia|]. split; [exact A|]. split; [exact B1|].
  destruct C as [C|(e & f & C1 & C2 & C3 & C4)]; [left; exact C|right]. pose proof (exp_bound 1 x e f ltac:(lia) C2 B1 C4) as U. change (Z.log2 1) with 0 in U. pose proof (is_width_pos _ (vc_F _ V)).
  exists e, f. split; [exact C1|]. split; [exact C2|]. split; [lia|exact C4].
Qed.
Context (n : Z) (N31 : n <= 2 ^ 31) (SP : 2 * L + 2 * top + Z.min (Z.log2 (n - 1)) (F - 1) < Z.max 32 F).
Lemma pinv_step k T s x w : pinv k T s -> pterm x w -> k < n ->
  exists s', u_add F (c_E c) s w = Ok s' /\ pinv (k + 1) (T + x) s'.
Proof using V H8 N31 SP.
  intros (K & T0 & TB & SH) (X0 & XB & WH) KN. pose proof (is_width_pos _ (vc_F _ V)) as BF. pose proof top_L as TL. pose proof (emax_bound c V) as [EB _]. pose proof (dot_E c V H8) as DE. unfold emax in EB, DE.
  assert (FIN : forall s', (s' = u_zero \/ exists e f, s' = U Regular false e f /\ 0 <= f < 2 ^ F /\ - (2 * L) <= e <= 2 * top + F - 1 /\ (uabs F e f <= T + x)%Q) -> pinv (k + 1) (T + x) s').
  { intros s' H. split; [lia|]. split; [lra|]. split; [|exact H]. rewrite inject_Z_plus. change (inject_Z 1) with 1%Q. lra. }
  destruct SH as [->|(e & f & -> & Hf & He & LE)].
  - exists w. split; [destruct WH as [->|(e' & f' & -> & _)]; reflexivity|]. apply FIN. destruct WH as [->|(e' & f' & -> & Hf' & He' & LE')]; [left; reflexivity|right].
    pose proof (exp_bound 1 x e' f' ltac:(lia) Hf' ltac:(change (inject_Z 1) with 1%Q; lra) LE') as U2. change (Z.log2 1) with 0 in U2.
    exists e', f'. split; [reflexivity|]. split; [exact Hf'|]. split; [lia|]. lra.
  - destruct WH as [->|(e' & f' & -> & Hf' & He' & LE')].
    + exists (U Regular false e f). split; [reflexivity|]. apply FIN. right. exists e, f. split; [reflexivity|]. split; [exact Hf|]. split; [exact He|]. lra.
    + pose proof (exp_bound k T e f K Hf TB LE) as U1. pose proof (exp_bound 1 x e' f' ltac:(lia) Hf' ltac:(change (inject_Z 1) with 1%Q; lra) LE') as U2. change (Z.log2 1) with 0 in U2.
      pose proof (Z.log2_le_mono k (n - 1) ltac:(lia)) as LK. pose proof (Z.log2_nonneg k) as LK0. assert (LN : Z.log2 (n - 1) <= 31) by (change 31 with (Z.log2 (2 ^ 31)); apply Z.log2_le_mono; lia).
      assert (NR : Z.abs (e - e') < pw F) by (unfold pw; lia).
      destruct (u_add_pos F (c_E c) e e' f f' (vc_F _ V) (c_E_width c V) Hf Hf') as (e1 & f1 & E1 & Hf1 & He1 & He2); try lia.
      destruct (u_add_err F (c_E c) false false e e' f f' (vc_F _ V) (c_E_width c V) Hf Hf') as [U|(s' & U & _ & A1 & _)]; try lia; [rewrite E1 in U; discriminate U|].
      rewrite E1 in U. injection U as <-. exists (U Regular false e1 f1). split; [exact E1|]. apply FIN. right. exists e1, f1. split; [reflexivity|]. split; [exact Hf1|]. split; [lia|].
      rewrite wval_reg in A1. rewrite (uval_qabs c V) in A1 by exact Hf1. lra.
Qed.
Lemma dot_acc_pos l : forall k T s, pinv k T s -> dot_real c l -> Forall (fun p => (0 <= value c (fst p) * value c (snd p))%Q) l -> k + Z.of_nat (length l) <= n ->
  exists w, dot_acc c s l = Ok w /\ pinv (k + Z.of_nat (length l)) (T + dot_exact c l) w.
Proof using V FF H8 N31 SP.
  induction l as [|[x y] l IH]; intros k T s I R P LN.
  - exists s. split; [reflexivity|]. cbn [length]. rewrite Z.add_0_r. revert I. apply pinv_comp; cbn; ring.
  - inversion R as [|? ? [Rx Ry] Rl]; subst. inversion P as [|? ? Pxy Pl]; subst. cbn [fst snd] in *. cbn [length] in LN. rewrite Nat2Z.inj_succ in LN.
    destruct (pterm_prod x y Rx Ry Pxy) as (w & E & TM & _). unfold uprod in E. cbn [fst snd] in E. cbn [dot_acc].
    destruct (unpack c x) as [ux|]; cbn [bind] in *; [|discriminate]. destruct (unpack c y) as [uy|]; cbn [bind] in *; [|discriminate]. rewrite E. cbn [bind].
    destruct (pinv_step k T s _ w I TM ltac:(lia)) as (s' & U & I'). rewrite U. cbn [bind]. destruct (IH (k + 1) _ s' I' Rl Pl ltac:(lia)) as (w' & D & ID).
    exists w'. split; [exact D|]. cbn [length]. rewrite Nat2Z.inj_succ. replace (k + Z.succ (Z.of_nat (length l))) with (k + 1 + Z.of_nat (length l)) by lia.
    revert ID. apply pinv_comp. unfold dot_exact. cbn [fold_right fst snd]. ring.
Qed.
End Positive.

Lemma dot_positive_defined c l : valid_cfg c -> exp_ok c -> frac_fits c -> roomy c -> (cH c = 8 -> cN c + ces c < 8 -> cF c <= 32) -> dot_real c l -> Forall (fun p => (0 <= value c (fst p) * value c (snd p))%Q) l ->
  Z.of_nat (length l) < 2 ^ 31 -> 2 * (cN c - 2 + maxk c) * 2 ^ ces c + Z.min (Z.log2 (Z.of_nat (length l) - 1)) (cF c - 1) < Z.max 32 (cF c) ->
  exists r x, p_dot c l = Ok r /\ rounds_tz c x r /\ (x <= dot_exact c l)%Q /\
    (dot_exact c l - x <= ((1 + pow2 (4 - cF c)) ^ Z.of_nat (length l) - 1) * dot_exact c l)%Q.
Proof.
  intros V X FF Rm H8 R P LN SP. destruct l as [|[x y] l].
  - exists 0, 0%Q. split; [reflexivity|]. split; [left; split; reflexivity|]. cbn. split; discriminate.
  - inversion R as [|? ? [Rx Ry] Rl]; subst. inversion P as [|? ? Pxy Pl]; subst. cbn [fst snd] in *.
    assert (M : (dot_magnitude c ((x, y) :: l) == dot_exact c ((x, y) :: l))%Q).
    { clear - P. induction P as [|[a b] t H HT IH]; cbn [dot_magnitude dot_exact fold_right fst snd] in *; [reflexivity|]. fold (dot_magnitude c t) (dot_exact c t). rewrite IH, Qabs_pos by exact H. reflexivity. }
    destruct (pterm_prod c V FF x y Rx Ry Pxy) as (w & E & TM & T0). unfold uprod in E. cbn [fst snd] in E. cbn [p_dot].
    set (n := Z.of_nat (length ((x, y) :: l))) in *. assert (NL : n = 1 + Z.of_nat (length l)) by (unfold n; cbn [length]; lia).
    destruct (unpack c x) as [ux|]; cbn [bind] in *; [|discriminate]. destruct (unpack c y) as [uy|]; cbn [bind] in *; [|discriminate]. rewrite E. cbn [bind].
    assert (SP' : 2 * ((cN c - 2) * 2 ^ ces c) + 2 * (maxk c * 2 ^ ces c) + Z.min (Z.log2 (n - 1)) (cF c - 1) < Z.max 32 (cF c)) by lia.
    destruct (dot_acc_pos c V FF H8 n ltac:(lia) SP' l 1 _ w (pinv_first c V _ _ TM) Rl Pl ltac:(lia)) as (s & D & PI). 
    destruct (dot_acc_inv c V FF H8 l 1 _ _ w (inv_first c V _ _ T0) Rl ltac:(lia)) as [D'|(s' & D' & I)]; [rewrite D in D'; discriminate D'|]. rewrite D in D'. injection D' as <-. rewrite D. cbn [bind].
    rewrite <- NL in PI, I. destruct PI as (_ & _ & _ & SH). destruct I as (_ & _ & _ & _ & ER & _). pose proof (is_width_pos _ (vc_F _ V)) as BF.
    rewrite (Qabs_pos (value c x * value c y) Pxy) in ER. change (value c x * value c y + dot_exact c l)%Q with (dot_exact c ((x, y) :: l)) in *.
    assert (M' : (value c x * value c y + dot_magnitude c l == dot_exact c ((x, y) :: l))%Q) by (rewrite <- M; unfold dot_magnitude; cbn [fold_right fst snd]; rewrite (Qabs_pos (value c x * value c y) Pxy); reflexivity). rewrite M' in ER. unfold grow in ER.
    set (G := (((1 + pow2 (4 - cF c)) ^ n - 1) * dot_exact c ((x, y) :: l))%Q) in *. apply Qabs_Qle_condition in ER.
    destruct SH as [->|(e & f & -> & Hf & He & LE)].
    + exists 0, 0%Q. split; [apply pack_zero|]. split; [left; split; reflexivity|]. rewrite wval_zero in ER. split; [|lra].
      clear - P. induction P as [|[a b] t H HT IH]; cbn [dot_exact fold_right fst snd] in *; [apply Qle_refl|]. fold (dot_exact c t). lra.
    + destruct (proj1 (pack_total c false e f V X Hf) (roomy_pack_room c e V Rm)) as (r & PR & TZ). exists r, (uvalue (cF c) false e f). split; [exact PR|]. split; [exact TZ|].
      rewrite wval_reg in ER. pose proof (uvalue_uval (cF c) false e f ltac:(lia)) as UV. rewrite uval_abs in UV, ER. cbn [sgq] in UV, ER. split; lra.
Qed.
Lemma fma_defined c : valid_cfg c -> exp_ok c -> fma_fits c -> roomy c ->
  ((forall a b d, real c a -> real c b -> real c d -> exists r, p_fma c a b d = Ok r) <-> (2 * (cN c - 2) + maxk c) * 2 ^ ces c < Z.max 32 (cF c)).
Proof.
  intros V X FF Rm. pose proof V as V'. vcb V'. pose proof (top_L c V) as TL. pose proof (maxreal_bounds c BN Bes) as MB. split.
  - intros H. destruct (Z_lt_le_dec ((2 * (cN c - 2) + maxk c) * 2 ^ ces c) (Z.max 32 (cF c))) as [L|L]; [exact L|exfalso].
    assert (R1 : real c 1) by (unfold real; lia). assert (RM : real c (maxreal c)) by (unfold real; lia).
    destruct (H 1 1 (maxreal c) R1 R1 RM) as (r & E). destruct (fma_faithful c 1 1 (maxreal c) V X FF R1 R1 RM) as (_ & _ & U). rewrite U in E; [discriminate E|].
    apply (far_by c _ _ (2 * (- (cN c - 2) * 2 ^ ces c)) (maxk c * 2 ^ ces c)).
    + apply (OpsAdd.scale_comp (pow2 (2 * (- (cN c - 2) * 2 ^ ces c)))); [|apply scale_pow2]. rewrite (one_value c V). replace (2 * (- (cN c - 2) * 2 ^ ces c)) with (- (cN c - 2) * 2 ^ ces c + - (cN c - 2) * 2 ^ ces c) by ring. rewrite pow2_plus. reflexivity.
    + apply (OpsAdd.scale_comp (pow2 (maxk c * 2 ^ ces c))); [symmetry; apply maxreal_value; exact V|apply scale_pow2].
    + lia.
  - intros S a b d Ra Rb Rd. destruct (fma_faithful c a b d V X FF Ra Rb Rd) as (_ & D & _). apply D; [|apply roomy_room_up; assumption].
    intros e1 e2 S1 S2. pose proof (scale_bounds c d e2 V Rd S2) as B2.
    assert (B1 : - (2 * ((cN c - 2) * 2 ^ ces c)) <= e1 <= 2 * (maxk c * 2 ^ ces c)).
    { destruct (Z.eq_dec a 0) as [->|Na]; [exfalso; apply (scale_nz _ _ S1); rewrite (value_0 c BN Bes); ring|]. destruct (Z.eq_dec b 0) as [->|Nb]; [exfalso; apply (scale_nz _ _ S1); rewrite (value_0 c BN Bes); ring|].
      destruct S1 as [S1 S1']. split.
      - apply Z.lt_succ_r. apply pow2_lt_inv. change (Z.succ e1) with (e1 + 1). eapply Qle_lt_trans; [|exact S1']. rewrite Qabs_Qmult. replace (- (2 * ((cN c - 2) * 2 ^ ces c))) with (- ((cN c - 2) * 2 ^ ces c) + - ((cN c - 2) * 2 ^ ces c)) by lia. rewrite pow2_plus.
        pose proof (pow2_pos (- ((cN c - 2) * 2 ^ ces c))). apply Qmult_le_compat_nonneg; (split; [lra|]); [apply (proj2 (real_size c V a Ra) Na)|apply (proj2 (real_size c V b Rb) Nb)].
      - destruct (Z_lt_le_dec (2 * (maxk c * 2 ^ ces c)) e1) as [G|G]; [exfalso|exact G]. pose proof (pow2_lt _ _ G). pose proof (product_size c V a b Ra Rb). lra. }
    lia.
Qed.
Lemma dot_long : dot_real x1 [(31, 31); (1, 1)] /\ Forall (fun p => (0 <= value x1 (fst p) * value x1 (snd p))%Q) [(31, 31); (1, 1)] /\ p_dot x1 [(31, 31); (1, 1)] = UB ShiftCount.
Proof.
  split; [|split; [|vm_compute; reflexivity]].
  - constructor; [split; unfold real; vm_compute; split; discriminate|]. constructor; [split; unfold real; vm_compute; split; discriminate|constructor].
  - constructor; [vm_compute; discriminate|]. constructor; [vm_compute; discriminate|constructor].
Qed.
Lemma dot_posit8 l : dot_real p8 l -> Forall (fun p => (0 <= value p8 (fst p) * value p8 (snd p))%Q) l -> Z.of_nat (length l) < 2 ^ 31 -> exists r, p_dot p8 l = Ok r /\ real p8 r.
Proof.
  intros R P N. assert (X : exp_ok p8) by compute_hyp. assert (FF : frac_fits p8) by compute_hyp. assert (Rm : roomy p8) by compute_hyp. assert (H8 : cH p8 = 8 -> cN p8 + ces p8 < 8 -> cF p8 <= 32) by compute_hyp.
  assert (S : 2 * (cN p8 - 2 + maxk p8) * 2 ^ ces p8 + Z.min (Z.log2 (Z.of_nat (length l) - 1)) (cF p8 - 1) < Z.max 32 (cF p8)).
  { change (2 * (cN p8 - 2 + maxk p8) * 2 ^ ces p8) with 24. change (cF p8) with 8. lia. }
  destruct (dot_positive_defined p8 l valid_p8 X FF Rm H8 R P N S) as (r & x & E & T & _). exists r. split; [exact E|].
  pose proof valid_p8 as V. vcb V. exact (rounds_tz_real p8 BN Bes _ _ T).
Qed.
