(** dot over products of both signs: when it is defined, and when it is exact. *)
From Coq Require Import ZArith QArith Qabs Qpower Lqa Lia Bool List Permutation.
From Verif Require Import Res CInt Bits Traits Unpacked Cfg Posit Spec SpecDot SpecAcc QPow Core SpecLemmas Arith DecodeProof EncodeProof UOps UAdd Room Ops OpsAdd Laws Final1 Final2 Fma Fma2 Dot Configs Examples Acc1 Acc2 Prog3 Misc4 DotPos DotFma Final4 Posit2.
Import ListNotations.
Open Scope Z_scope.

(** Multiples of 2^g. *)
Definition ong (g : Z) (q : Q) : Prop := exists k, (q == dy k g)%Q.
Lemma ong_comp g q q' : (q == q')%Q -> ong g q -> ong g q'.
Proof. intros E [k H]. exists k. rewrite <- E. exact H. Qed.
Lemma ong_sgq g n q : ong g q <-> ong g (sgq n q).
Proof.
  destruct n; cbn [sgq]; [|tauto]. split; intros [k E]; exists (- k); rewrite <- dy_opp, <- E; ring.
Qed.
Lemma ong_sum g a b : ong g a -> ong g b -> ong g (a + b).
Proof. intros [k A] [m B]. exists (k + m). rewrite A, B. apply dy_add. Qed.
Lemma ong_mul g h a b : ong g a -> ong h b -> ong (g + h) (a * b).
Proof. intros [k A] [m B]. exists (k * m). rewrite A, B. apply dy_mul. Qed.
Lemma trunc_grid g u q T : ong g q -> (dy T u <= q)%Q -> (q < dy (T + 1) u)%Q -> ong g (dy T u) /\ (u <= g -> (dy T u == q)%Q).
Proof.
  intros [k E] L U. assert (S : u <= g -> (dy T u == q)%Q).
  { intros G. rewrite (dy_align k g u G) in E. rewrite E in *. apply dy_le_inv in L. apply dy_lt_inv in U. replace T with (k * 2 ^ (g - u)) by lia. reflexivity. }
  split; [|exact S]. destruct (Z_le_gt_dec u g) as [G|G].
  - exists k. rewrite (S G). exact E.
  - exists (T * 2 ^ (u - g)). apply dy_align. lia.
Qed.
(** A number on the grid with leading bit 2^e. *)
Lemma ong_exp F g e f : 0 <= F -> 0 <= f < 2 ^ F -> ong g (uabs F e f) -> g <= e.
Proof.
  intros HF Hf [k E]. pose proof (uabs_pos F e f HF ltac:(lia)) as P. destruct (uabs_scale F e f HF Hf) as [_ S]. rewrite E in P, S.
  rewrite <- (dy_0 g) in P. apply dy_lt_inv in P. apply Z.lt_succ_r. apply pow2_lt_inv. change (Z.succ e) with (e + 1). eapply Qle_lt_trans; [|exact S].
  assert (Q1 : (pow2 g == dy 1 g)%Q) by (unfold dy; change (inject_Z 1) with 1%Q; ring). rewrite Q1. apply dy_le. lia.
Qed.
Lemma posit_grid c v : valid_cfg c -> real c v -> ong (- ((cN c - 2) * 2 ^ ces c)) (value c v).
Proof.
  intros V R. pose proof (v_N c V) as HN. pose proof (v_es c V) as Hes.
  assert (POS : forall w, 1 <= w < 2 ^ (cN c - 1) -> ong (- ((cN c - 2) * 2 ^ ces c)) (value c w)).
  { intros w W. destruct (on_grid c V w W) as (e & m & _ & EL & _ & E). eexists. rewrite E. apply dy_align.
    rewrite (fb_sft c V). unfold gran, sft. pow_pos 2 (ces c). pose proof (Z.div_mod e (2 ^ ces c) ltac:(lia)) as D. pose proof (Z.mod_pos_bound e (2 ^ ces c) ltac:(lia)) as B.
    assert (K : - (cN c - 2) <= e / 2 ^ ces c) by (apply Z.div_le_lower_bound; lia).
    set (k := e / 2 ^ ces c) in *. set (t := 2 ^ ces c) in *. clearbody k t. destruct (Z.leb_spec 0 k); nia. }
  pose proof (real_bounds c HN Hes v R) as B. destruct (Z.lt_trichotomy v 0) as [S|[S|S]].
  - apply (ong_comp _ (- value c (- v))); [rewrite (value_opp c HN Hes); ring|]. apply (proj1 (ong_sgq _ true (value c (- v)))). apply POS. lia.
  - exists 0. rewrite S, (value_0 c HN Hes), dy_0. reflexivity.
  - apply POS. lia.
Qed.

(** Products. *)
Lemma trunc2 F L e f : is_width F -> 0 <= f < 2 ^ F -> ong L (uabs F e f) -> ong L (dy (2 ^ F + 2 * (f / 2)) (e - F)).
Proof.
  intros W Hf G. pose proof (is_width_pos F W) as BF. assert (EF : 2 ^ F = 2 ^ (F - 1) * 2 ^ 1) by (rewrite <- Z.pow_add_r by lia; f_equal; lia).
  pose proof (Z.div_mod f 2 ltac:(lia)) as D. pose proof (Z.mod_pos_bound f 2 ltac:(lia)) as B.
  assert (E : forall k, (dy ((2 ^ (F - 1) + k) * 2 ^ 1) (e - F) == dy (2 ^ (F - 1) + k) (e - F + 1))%Q) by (intros k; apply dy_pow; lia).
  replace (2 ^ F + 2 * (f / 2)) with ((2 ^ (F - 1) + f / 2) * 2 ^ 1) by (rewrite EF; change (2 ^ 1) with 2; ring).
  apply (ong_comp _ (dy (2 ^ (F - 1) + f / 2) (e - F + 1))); [symmetry; apply E|].
  apply (trunc_grid L (e - F + 1) (uabs F e f)); [exact G| |]; unfold uabs; rewrite ?EF.
  - rewrite <- E. apply dy_le. change (2 ^ 1) with 2. lia.
  - rewrite <- Z.add_assoc, <- E. apply dy_lt. change (2 ^ 1) with 2. lia.
Qed.
Lemma cell_grid F g e f j x : 8 <= F -> 1 <= j <= 2 -> cell F e f j x -> ong g x -> ong g (uabs F e f) /\ (e - F + j <= g -> (uabs F e f == x)%Q).
Proof.
  intros BF J (Hf & _ & M & L & U) G. assert (EF : 2 ^ F = 2 ^ (F - j) * 2 ^ j) by (rewrite <- Z.pow_add_r by lia; f_equal; lia).
  pow_pos 2 j. apply Z.mod_divide in M; [|lia]. destruct M as [q Q]. set (T := 2 ^ (F - j) + q).
  assert (E : (uabs F e f == dy T (e - F + j))%Q).
  { unfold uabs. rewrite EF, Q, <- Z.mul_add_distr_r, dy_pow by lia. reflexivity. }
  assert (E1 : (dy (2 ^ F + f + 2 ^ j) (e - F) == dy (T + 1) (e - F + j))%Q).
  { rewrite <- dy_pow by lia. rewrite EF, Q. unfold T. replace (2 ^ (F - j) * 2 ^ j + q * 2 ^ j + 2 ^ j) with ((2 ^ (F - j) + q + 1) * 2 ^ j) by ring. reflexivity. }
  rewrite E in L. rewrite E1 in U. destruct (trunc_grid g _ x T G L U) as [R1 R2]. split; [apply (ong_comp _ _ _ (Qeq_sym _ _ E)); exact R1|]. intros S. rewrite E. exact (R2 S).
Qed.
(** Sums of two numbers on the grid, near each other. *)
Lemma u_add_any F E g na nb ea eb fa fb : is_width F -> is_width E -> 0 <= fa < 2 ^ F -> 0 <= fb < 2 ^ F ->
  - 2 ^ (E - 1) <= ea - eb < 2 ^ (E - 1) -> - 2 ^ (E - 1) <= eb - ea < 2 ^ (E - 1) ->
  Z.max ea eb + 1 < 2 ^ (E - 1) -> - 2 ^ (E - 1) <= Z.max ea eb + 2 - F -> Z.abs (ea - eb) < pw F ->
  ong g (uabs F ea fa) -> ong g (uabs F eb fb) -> F < 32 \/ Z.max ea eb + 2 - F < g \/ na = nb \/ (uabs F eb fb <= pow2 (ea - 1))%Q ->
  exists w, u_add F E (U Regular na ea fa) (U Regular nb eb fb) = Ok w /\
    (w = u_zero \/ exists n e f, w = U Regular n e f /\ 0 <= f < 2 ^ F /\ ong g (uabs F e f) /\ e <= Z.max ea eb + 1 /\ (F - 1 <= Z.abs (ea - eb) -> e <= Z.max ea eb)) /\
    (Z.max ea eb + 2 - F <= g -> (wval F w == uval F na ea fa + uval F nb eb fb)%Q).
Proof.
  intros WF WE Ha Hb D1 D2 D3 D4 NR GA GB OKN. pose proof (is_width_pos F WF) as BF. pose proof (is_width_pos E WE) as BE.
  rewrite u_add_eq by (assumption || lia). cbv zeta. set (M := Z.max ea eb) in *.
  destruct (align_bounds F M ea fa WF Ha ltac:(lia)) as [A1 A2]. destruct (align_bounds F M eb fb WF Hb ltac:(lia)) as [B1 B2].
  destruct (trunc_grid g _ _ _ GA A1 A2) as [GA1 GA2]. destruct (trunc_grid g _ _ _ GB B1 B2) as [GB1 GB2].
  assert (E4 : 2 ^ F = 4 * 2 ^ (F - 2)) by (change 4 with (2 ^ 2); rewrite <- Z.pow_add_r by lia; f_equal; lia).
  assert (E2 : 2 ^ (F - 1) = 2 * 2 ^ (F - 2)) by (rewrite <- (Z.pow_add_r 2 1) by lia; f_equal; lia).
  pose proof (sig2_bounds F fa WF Ha) as SA. pose proof (sig2_bounds F fb WF Hb) as SB.
  assert (DB : forall s n, 0 <= s -> 0 <= n -> 0 <= s / 2 ^ n <= s).
  { intros s n H0 H1. pow_pos 2 n. split; [apply Z.div_pos; lia|apply Z.div_le_upper_bound; nia]. }
  pose proof (DB (sig2 F fa) (M - ea) ltac:(lia) ltac:(lia)) as BA. pose proof (DB (sig2 F fb) (M - eb) ltac:(lia) ltac:(lia)) as BB.
  assert (LOST : F - 1 <= Z.abs (ea - eb) -> sig2 F fa / 2 ^ (M - ea) + sig2 F fb / 2 ^ (M - eb) < 2 ^ (F - 1)).
  { intros LD. assert (Q0 : forall t d, 0 <= t < 2 ^ (F - 1) -> F - 1 <= d -> t / 2 ^ d = 0) by (intros t d Ht Hd; apply Z.div_small; pose proof (Z.pow_le_mono_r 2 (F - 1) d ltac:(lia) Hd); lia).
    destruct (Z.max_spec ea eb) as [[K0 K]|[K0 K]]; unfold M; rewrite K, Z.sub_diag, Z.div_1_r; rewrite Q0 by lia; lia. }
  assert (TOP : 2 ^ (F - 2) <= sig2 F fa / 2 ^ (M - ea) \/ 2 ^ (F - 2) <= sig2 F fb / 2 ^ (M - eb)).
  { destruct (Z.max_spec ea eb) as [[_ K]|[_ K]]; unfold M; rewrite K, Z.sub_diag, Z.div_1_r; lia. }
  assert (FAR : (uabs F eb fb <= pow2 (ea - 1))%Q -> 2 ^ (F - 2) <= sig2 F fa / 2 ^ (M - ea) /\ sig2 F fb / 2 ^ (M - eb) <= 2 ^ (F - 3)).
  { intros LE. pose proof (proj1 (uabs_scale F eb fb ltac:(lia) Hb)) as S. assert (EA : eb < ea - 1 + 1) by (apply pow2_lt_inv; pose proof (pow2_lt (ea - 1) (ea - 1 + 1) ltac:(lia)); lra).
    assert (EM : M = ea) by (unfold M; lia). split; [rewrite EM, Z.sub_diag, Z.div_1_r; lia|]. apply (dy_le_inv _ _ (M + 2 - F)).
    assert (P : (pow2 (ea - 1) == dy (2 ^ (F - 3)) (M + 2 - F))%Q).
    { rewrite <- (Z.mul_1_l (2 ^ (F - 3))), dy_pow by lia. replace (M + 2 - F + (F - 3)) with (ea - 1) by lia. unfold dy. change (inject_Z 1) with 1%Q. ring. }
    rewrite <- P. lra. }
  set (A := sig2 F fa / 2 ^ (M - ea)) in *. set (B := sig2 F fb / 2 ^ (M - eb)) in *. clearbody A B.
  pose proof (sgn_sum na nb A B (M + 2 - F) ltac:(lia) ltac:(lia)) as SG. pose proof (addfrac_le na nb A B ltac:(lia) ltac:(lia)) as FL.
  assert (SAME : na = nb -> F - 2 <= Z.log2 (addfrac na nb A B)) by (intros ->; unfold addfrac; rewrite Bool.eqb_reflx; apply Z.log2_le_pow2; lia).
  assert (E3 : 2 ^ (F - 2) = 2 * 2 ^ (F - 3)) by (rewrite <- (Z.pow_add_r 2 1) by lia; f_equal; lia).
  assert (BIG : (uabs F eb fb <= pow2 (ea - 1))%Q -> F - 3 <= Z.log2 (addfrac na nb A B)).
  { intros LE. destruct (FAR LE) as [F1 F2]. pow_pos 2 (F - 3). unfold addfrac. apply Z.log2_le_pow2; [destruct (Bool.eqb na nb); [|destruct (Z.ltb_spec A B)]; lia|destruct (Bool.eqb na nb); [|destruct (Z.ltb_spec A B)]; lia]. }
  set (fr := addfrac na nb A B) in *. set (n := addneg na nb A B) in *. clearbody fr n.
  assert (GF : ong g (dy fr (M + 2 - F))).
  { apply (proj2 (ong_sgq g n _)). apply (ong_comp _ _ _ (Qeq_sym _ _ SG)). apply ong_sum; apply (proj1 (ong_sgq g _ _)); assumption. }
  assert (EX : M + 2 - F <= g -> (sgq n (dy fr (M + 2 - F)) == uval F na ea fa + uval F nb eb fb)%Q).
  { intros G. rewrite SG, !uval_abs. apply Qplus_comp; apply sgq_comp; [apply GA2|apply GB2]; exact G. }
  destruct (Z.eq_dec fr 0) as [Z0|NZ].
  { exists u_zero. subst fr. split; [reflexivity|]. split; [left; reflexivity|]. intros G. rewrite <- (EX G). change (wval F u_zero) with 0%Q. destruct n; cbn [sgq]; rewrite dy_0; reflexivity. }
  pose proof (Z.log2_nonneg fr) as LN. assert (LF : Z.log2 fr < F) by (apply Z.log2_lt_pow2; lia).
  assert (K : F - Z.log2 fr < pw F).
  { unfold pw. destruct OKN as [O|[O|[O|O]]]; [lia| |specialize (SAME O); lia|specialize (BIG O); lia]. destruct (Z.eq_dec (Z.log2 fr) 0) as [L0|L0]; [exfalso|lia].
    assert (F1 : fr = 1) by (pose proof (Z.log2_spec fr ltac:(lia)) as LS; rewrite L0 in LS; change (2 ^ Z.succ 0) with 2 in LS; lia).
    destruct GF as [m GF]. rewrite F1 in GF. rewrite (dy_align m g (M + 2 - F)) in GF by lia. apply dy_eq_inv in GF.
    replace (g - (M + 2 - F)) with ((g - (M + 2 - F) - 1) + 1) in GF by lia. rewrite pow2_S in GF by lia. lia. }
  destruct (u_normalized_spec F E n (M + 1) fr WF WE ltac:(lia) K ltac:(lia)) as [N1 [N2 N3]].
  pose proof (norm_val F (M + 1) fr WF ltac:(lia)) as NV. replace (M + 1 + 1 - F) with (M + 2 - F) in NV by lia.
  eexists. split; [exact N1|]. split.
  - right. eexists _, _, _. split; [reflexivity|]. split; [exact N2|]. split; [|split; [lia|]].
    + apply (ong_comp _ _ _ (Qeq_sym _ _ NV)). exact GF.
    + intros LD. specialize (LOST LD). assert (Z.log2 fr < F - 1) by (apply Z.log2_lt_pow2; lia). lia.
  - intros G. rewrite <- (EX G). unfold wval. cbn [utyp uneg uexp ufrac]. rewrite uval_abs. apply sgq_comp. exact NV.
Qed.

Section Mixed.
Context (c : cfg) (V : valid_cfg c) (FF : frac_fits c) (H8 : cH c = 8 -> cN c + ces c < 8 -> cF c <= 32).
Notation F := (cF c).
Notation L := ((cN c - 2) * 2 ^ ces c).
Notation top := (maxk c * 2 ^ ces c).
Notation wide := (2 * (L + top) + 2 <= F).

Definition mterm (x : Q) (w : unpacked) : Prop :=
  (Qabs x <= pow2 (2 * top))%Q /\ (wide -> (wval F w == x)%Q) /\
  (w = u_zero \/ exists n e f, w = U Regular n e f /\ 0 <= f < 2 ^ F /\ ong (- (2 * L)) (uabs F e f) /\ (uabs F e f <= Qabs x)%Q).

Lemma mterm_prod x y : real c x -> real c y -> exists w, uprod c (x, y) = Ok w /\ mterm (value c x * value c y) w /\ term c (value c x * value c y) w.
Proof using V FF.
  intros RX RY. destruct (uprod_term c V FF x y RX RY) as (w & E & T). exists w. split; [exact E|]. split; [|exact T]. pose proof (product_size c V x y RX RY) as S. split; [exact S|].
  destruct T as [_ [[-> X]|(n & e & f & -> & Hf & He & LE & ER)]]; [split; [intros _; rewrite X; reflexivity|left; reflexivity]|].
  vcb V. pose proof (is_width_pos _ (vc_F _ V)) as BF. pose proof (emax_bound c V) as [B1 B2]. unfold frac_fits in FF. rewrite <- gran_val in FF.
  pose proof (top_L c V) as TL.
  unfold uprod in E. cbn [fst snd] in E.
  destruct (Z.eq_dec x 0) as [->|Nx].
  { exfalso. rewrite unpack_zero in E by assumption. cbn [bind] in E. destruct (unpack c y) as [u|]; cbn [bind] in E; [|discriminate]. destruct u as [[| | |] ? ? ?]; discriminate E. }
  destruct (unpack_real c x 0 V ltac:(lia) ltac:(lia) RX Nx) as (e1 & f1 & U1 & H1 & E1 & _ & V1). rewrite U1 in E. cbn [bind] in E.
  destruct (Z.eq_dec y 0) as [->|Ny].
  { exfalso. rewrite unpack_zero in E by assumption. discriminate E. }
  destruct (unpack_real c y 0 V ltac:(lia) ltac:(lia) RY Ny) as (e2 & f2 & U2 & H2 & E2 & _ & V2). rewrite U2 in E. cbn [bind] in E.
  destruct (u_mul_spec F (c_E c) (x <? 0) (y <? 0) e1 e2 f1 f2 (vc_F _ V) (c_E_width c V) H1 H2 ltac:(lia) ltac:(lia)) as (e' & f' & j & M2 & J & Ee & C).
  rewrite E in M2. injection M2 as -> <- <-.
  assert (GX : ong (- L) (uabs F e1 f1)) by (apply (proj2 (ong_sgq _ (x <? 0) _)); apply (ong_comp _ (value c x)); [rewrite V1; apply uval_abs|apply posit_grid; assumption]).
  assert (GY : ong (- L) (uabs F e2 f2)) by (apply (proj2 (ong_sgq _ (y <? 0) _)); apply (ong_comp _ (value c y)); [rewrite V2; apply uval_abs|apply posit_grid; assumption]).
  pose proof (trunc2 F (- L) e1 f1 (vc_F _ V) H1 GX) as TX. pose proof (trunc2 F (- L) e2 f2 (vc_F _ V) H2 GY) as TY.
  pose proof (ong_mul _ _ _ _ TX TY) as TXY. replace (- L + - L) with (- (2 * L)) in TXY by lia.
  destruct (cell_grid F _ e f j _ ltac:(lia) J C TXY) as [G1 G2].
  split; [|right; exists (xorb (x <? 0) (y <? 0)), e, f; split; [reflexivity|]; split; [exact Hf|]; split; [exact G1|exact LE]].
  intros W. pose proof (exp_bound c V 1 (Qabs (value c x * value c y)) e f ltac:(lia) Hf ltac:(change (inject_Z 1) with 1%Q; lra) LE) as EB. change (Z.log2 1) with 0 in EB.
  rewrite wval_reg, uval_abs. rewrite V1, V2, !uval_abs, sgq_mul. apply sgq_comp. rewrite G2 by lia.
  assert (TE : forall v e0 f0, real c v -> v <> 0 -> 0 <= f0 < 2 ^ F -> (value c v == uval F (v <? 0) e0 f0)%Q -> ong (- L) (uabs F e0 f0) -> (dy (2 ^ F + 2 * (f0 / 2)) (e0 - F) == uabs F e0 f0)%Q).
  { intros v e0 f0 Rv Nv H0 Vv Gv. 
    assert (EV : (Qabs (value c v) == uabs F e0 f0)%Q) by (rewrite Vv; apply (uval_qabs c V); exact H0).
    assert (ET : e0 <= top).
    { apply Z.lt_succ_r. apply pow2_lt_inv. pose proof (proj1 (uabs_scale F e0 f0 ltac:(lia) H0)) as S0. pose proof (proj1 (real_size c V v Rv)) as S1. pose proof (pow2_lt top (Z.succ top) ltac:(lia)). rewrite <- EV in S0. lra. }
    assert (EF : 2 ^ F = 2 ^ (F - 1) * 2 ^ 1) by (rewrite <- Z.pow_add_r by lia; f_equal; lia).
    assert (Q1 : forall k, (dy ((2 ^ (F - 1) + k) * 2 ^ 1) (e0 - F) == dy (2 ^ (F - 1) + k) (e0 - F + 1))%Q) by (intros k; apply dy_pow; lia).
    pose proof (Z.div_mod f0 2 ltac:(lia)) as D. pose proof (Z.mod_pos_bound f0 2 ltac:(lia)) as B.
    replace (2 ^ F + 2 * (f0 / 2)) with ((2 ^ (F - 1) + f0 / 2) * 2 ^ 1) by (rewrite EF; change (2 ^ 1) with 2; ring). rewrite Q1.
    apply (trunc_grid (- L) (e0 - F + 1) (uabs F e0 f0)); [exact Gv| | |lia]; unfold uabs; rewrite ?EF.
    - rewrite <- Q1. apply dy_le. change (2 ^ 1) with 2. lia.
    - rewrite <- Z.add_assoc, <- Q1. apply dy_lt. change (2 ^ 1) with 2. lia. }
  rewrite (TE x e1 f1 RX Nx H1 V1 GX), (TE y e2 f2 RY Ny H2 V2 GY). reflexivity.
Qed.

(** The running sum after k terms of sum S and magnitude T. *)
Context (n : Z) (N31 : n <= 2 ^ 31) (SP : 2 * L + 2 * top + Z.max (Z.min (Z.log2 (n - 1)) (F - 1)) (if F <? 32 then 0 else 2) < Z.max 32 F).
Notation exact := (2 * (L + top) + Z.log2 (n - 1) + 2 <= F).
Definition minv (k : Z) (S T : Q) (w : unpacked) : Prop :=
  1 <= k /\ (0 <= T)%Q /\ (T <= inject_Z k * pow2 (2 * top))%Q /\ (exact -> (wval F w == S)%Q) /\
  (w = u_zero \/ exists n e f, w = U Regular n e f /\ 0 <= f < 2 ^ F /\ ong (- (2 * L)) (uabs F e f) /\ e <= 2 * top + F - 1 /\ (uabs F e f <= T)%Q).
Lemma minv_comp k S S' T T' w : (S == S')%Q -> (T == T')%Q -> minv k S T w -> minv k S' T' w.
Proof using.
  intros ES ET (A & B & C & X & D). split; [exact A|]. split; [lra|]. split; [lra|]. split; [intros Y; rewrite <- ES; exact (X Y)|].
  destruct D as [D|(m & e & f & D1 & D2 & D3 & D4 & D5)]; [left; exact D|right]. exists m, e, f. split; [exact D1|]. split; [exact D2|]. split; [exact D3|]. split; [exact D4|lra].
Qed.
Lemma exact_wide : exact -> wide.
Proof using. clear SP. intros. pose proof (Z.log2_nonneg (n - 1)). lia. Qed.
Lemma minv_first x w : mterm x w -> minv 1 x (Qabs x) w.
Proof using V.
  intros (B & X & C). assert (B1 : (Qabs x <= inject_Z 1 * pow2 (2 * top))%Q) by (change (inject_Z 1) with 1%Q; lra). split; [lia|]. split; [apply Qabs_nonneg|]. split; [exact B1|]. split; [intros Y; exact (X (exact_wide Y))|].
  destruct C as [C|(m & e & f & C1 & C2 & C3 & C4)]; [left; exact C|right]. pose proof (exp_bound c V 1 (Qabs x) e f ltac:(lia) C2 B1 C4) as U. change (Z.log2 1) with 0 in U. pose proof (is_width_pos _ (vc_F _ V)).
  exists m, e, f. split; [exact C1|]. split; [exact C2|]. split; [exact C3|]. split; [lia|exact C4].
Qed.
Lemma minv_step k S T s x w : minv k S T s -> mterm x w -> k < n ->
  exists s', u_add F (c_E c) s w = Ok s' /\ minv (k + 1) (S + x) (T + Qabs x) s'.
Proof using V H8 N31 SP.
  intros (K & T0 & TB & XS & SH) (XB & XW & WH) KN. pose proof (is_width_pos _ (vc_F _ V)) as BF. pose proof (top_L c V) as TL. pose proof (emax_bound c V) as [EB _]. pose proof (dot_E c V H8) as DE. unfold emax in EB, DE.
  pose proof (Qabs_nonneg x) as X0.
  assert (FIN : forall s', (exact -> (wval F s' == wval F s + wval F w)%Q) -> (s' = u_zero \/ exists m e f, s' = U Regular m e f /\ 0 <= f < 2 ^ F /\ ong (- (2 * L)) (uabs F e f) /\ e <= 2 * top + F - 1 /\ (uabs F e f <= T + Qabs x)%Q) -> minv (k + 1) (S + x) (T + Qabs x) s').
  { intros s' HX H. split; [lia|]. split; [lra|]. split; [rewrite inject_Z_plus; change (inject_Z 1) with 1%Q; lra|]. split; [|exact H]. intros Y. rewrite (HX Y), (XS Y), (XW (exact_wide Y)). reflexivity. }
  destruct SH as [->|(m & e & f & -> & Hf & Ge & He & LE)].
  - exists w. split; [destruct WH as [->|(m' & e' & f' & -> & _)]; reflexivity|]. apply FIN; [intros _; change (wval F u_zero) with 0%Q; ring|]. destruct WH as [->|(m' & e' & f' & -> & Hf' & Ge' & LE')]; [left; reflexivity|right].
    pose proof (exp_bound c V 1 (Qabs x) e' f' ltac:(lia) Hf' ltac:(change (inject_Z 1) with 1%Q; lra) LE') as U2. change (Z.log2 1) with 0 in U2.
    exists m', e', f'. split; [reflexivity|]. split; [exact Hf'|]. split; [exact Ge'|]. split; [lia|]. lra.
  - destruct WH as [->|(m' & e' & f' & -> & Hf' & Ge' & LE')].
    + exists (U Regular m e f). split; [reflexivity|]. apply FIN; [intros _; change (wval F u_zero) with 0%Q; ring|]. right. exists m, e, f. split; [reflexivity|]. split; [exact Hf|]. split; [exact Ge|]. split; [exact He|]. lra.
    + pose proof (exp_bound c V k T e f K Hf TB LE) as U1. pose proof (exp_bound c V 1 (Qabs x) e' f' ltac:(lia) Hf' ltac:(change (inject_Z 1) with 1%Q; lra) LE') as U2. change (Z.log2 1) with 0 in U2.
      pose proof (ong_exp F _ e f ltac:(lia) Hf Ge) as G1. pose proof (ong_exp F _ e' f' ltac:(lia) Hf' Ge') as G2.
      pose proof (Z.log2_le_mono k (n - 1) ltac:(lia)) as LK. pose proof (Z.log2_nonneg k) as LK0. assert (LN : Z.log2 (n - 1) <= 31) by (change 31 with (Z.log2 (2 ^ 31)); apply Z.log2_le_mono; lia).
      assert (NR : Z.abs (e - e') < pw F) by (unfold pw; destruct (Z.ltb_spec F 32); lia).
      destruct (u_add_any F (c_E c) (- (2 * L)) m m' e e' f f' (vc_F _ V) (c_E_width c V) Hf Hf') as (s' & E1 & SH & EX); try assumption; try lia.
      { destruct (Z.ltb_spec F 32) as [?|F32]; [left; lia|right]. destruct (Z_le_gt_dec (Z.max e e') (2 * top)) as [B|B]; [left; lia|right; right].
        pose proof (pow2_le (2 * top) (e - 1) ltac:(lia)). lra. }
      destruct (u_add_err F (c_E c) m m' e e' f f' (vc_F _ V) (c_E_width c V) Hf Hf') as [U|(s2 & U & _ & A1 & _)]; try lia; [rewrite E1 in U; discriminate U|].
      rewrite E1 in U. injection U as <-. exists s'. split; [exact E1|]. apply FIN; [intros Y; rewrite !wval_reg; apply EX; lia|].
      destruct SH as [->|(m1 & e1 & f1 & -> & Hf1 & Ge1 & He1 & He2)]; [left; reflexivity|right]. exists m1, e1, f1. split; [reflexivity|]. split; [exact Hf1|]. split; [exact Ge1|]. split; [lia|].
      rewrite wval_reg in A1. rewrite (uval_qabs c V) in A1 by exact Hf1. lra.
Qed.
Lemma dot_acc_mix l : forall k S T s, minv k S T s -> dot_real c l -> k + Z.of_nat (length l) <= n ->
  exists w, dot_acc c s l = Ok w /\ minv (k + Z.of_nat (length l)) (S + dot_exact c l) (T + dot_magnitude c l) w.
Proof using V FF H8 N31 SP.
  induction l as [|[x y] l IH]; intros k S T s I R LN.
  - exists s. split; [reflexivity|]. cbn [length]. rewrite Z.add_0_r. revert I. apply minv_comp; cbn; ring.
  - inversion R as [|? ? [Rx Ry] Rl]; subst. cbn [fst snd] in *. cbn [length] in LN. rewrite Nat2Z.inj_succ in LN.
    destruct (mterm_prod x y Rx Ry) as (w & E & TM & _). unfold uprod in E. cbn [fst snd] in E. cbn [dot_acc].
    destruct (unpack c x) as [ux|]; cbn [bind] in *; [|discriminate]. destruct (unpack c y) as [uy|]; cbn [bind] in *; [|discriminate]. rewrite E. cbn [bind].
    destruct (minv_step k S T s _ w I TM ltac:(lia)) as (s' & U & I'). rewrite U. cbn [bind]. destruct (IH (k + 1) _ _ s' I' Rl ltac:(lia)) as (w' & D & ID).
    exists w'. split; [exact D|]. cbn [length]. rewrite Nat2Z.inj_succ. replace (k + Z.succ (Z.of_nat (length l))) with (k + 1 + Z.of_nat (length l)) by lia.
    revert ID. apply minv_comp; unfold dot_exact, dot_magnitude; cbn [fold_right fst snd]; ring.
Qed.
End Mixed.

Lemma dot_mixed c l : valid_cfg c -> exp_ok c -> frac_fits c -> roomy c -> (cH c = 8 -> cN c + ces c < 8 -> cF c <= 32) -> dot_real c l ->
  Z.of_nat (length l) < 2 ^ 31 -> 2 * (cN c - 2 + maxk c) * 2 ^ ces c + Z.max (Z.min (Z.log2 (Z.of_nat (length l) - 1)) (cF c - 1)) (if cF c <? 32 then 0 else 2) < Z.max 32 (cF c) ->
  exists r x, p_dot c l = Ok r /\ rounds_tz c x r /\
    (Qabs (x - dot_exact c l) <= ((1 + pow2 (4 - cF c)) ^ Z.of_nat (length l) - 1) * dot_magnitude c l)%Q /\
    (2 * (cN c - 2 + maxk c) * 2 ^ ces c + Z.log2 (Z.of_nat (length l) - 1) + 2 <= cF c -> (x == dot_exact c l)%Q).
Proof.
  intros V X FF Rm H8 R LN SP. destruct l as [|[x y] l].
  - exists 0, 0%Q. split; [reflexivity|]. split; [left; split; reflexivity|]. cbn. split; [discriminate|reflexivity].
  - inversion R as [|? ? [Rx Ry] Rl]; subst. cbn [fst snd] in *.
    destruct (mterm_prod c V FF x y Rx Ry) as (w & E & TM & T0). unfold uprod in E. cbn [fst snd] in E. cbn [p_dot].
    set (n := Z.of_nat (length ((x, y) :: l))) in *. assert (NL : n = 1 + Z.of_nat (length l)) by (unfold n; cbn [length]; lia).
    destruct (unpack c x) as [ux|]; cbn [bind] in *; [|discriminate]. destruct (unpack c y) as [uy|]; cbn [bind] in *; [|discriminate]. rewrite E. cbn [bind].
    assert (SP' : 2 * ((cN c - 2) * 2 ^ ces c) + 2 * (maxk c * 2 ^ ces c) + Z.max (Z.min (Z.log2 (n - 1)) (cF c - 1)) (if cF c <? 32 then 0 else 2) < Z.max 32 (cF c)) by lia.
    destruct (dot_acc_mix c V FF H8 n ltac:(lia) SP' l 1 _ _ w (minv_first c V n _ _ TM) Rl ltac:(lia)) as (s & D & PI).
    destruct (dot_acc_inv c V FF H8 l 1 _ _ w (inv_first c V _ _ T0) Rl ltac:(lia)) as [D'|(s' & D' & I)]; [rewrite D in D'; discriminate D'|]. rewrite D in D'. injection D' as <-. rewrite D. cbn [bind].
    rewrite <- NL in PI, I. destruct PI as (_ & _ & _ & EX & SH). destruct I as (_ & _ & _ & _ & ER & _). pose proof (is_width_pos _ (vc_F _ V)) as BF.
    change (value c x * value c y + dot_exact c l)%Q with (dot_exact c ((x, y) :: l)) in *.
    change (Qabs (value c x * value c y) + dot_magnitude c l)%Q with (dot_magnitude c ((x, y) :: l)) in *. unfold grow in ER.
    assert (EX' : 2 * (cN c - 2 + maxk c) * 2 ^ ces c + Z.log2 (n - 1) + 2 <= cF c -> (wval (cF c) s == dot_exact c ((x, y) :: l))%Q) by (intros Y; apply EX; lia). clear EX.
    destruct SH as [->|(m & e & f & -> & Hf & _)].
    + exists 0, 0%Q. split; [apply pack_zero|]. split; [left; split; reflexivity|]. split; [exact ER|exact EX'].
    + destruct (proj1 (pack_total c m e f V X Hf) (roomy_pack_room c e V Rm)) as (r & PR & TZ). exists r, (uvalue (cF c) m e f). split; [exact PR|]. split; [exact TZ|].
      rewrite wval_reg in ER, EX'. pose proof (uvalue_uval (cF c) m e f ltac:(lia)) as UV. split; [rewrite UV; exact ER|]. intros Y. rewrite UV. exact (EX' Y).
Qed.
Lemma dot_posit8_all l : dot_real p8 l -> Z.of_nat (length l) < 2 ^ 31 -> exists r, p_dot p8 l = Ok r /\ real p8 r.
Proof.
  intros R N. assert (X : exp_ok p8) by compute_hyp. assert (FF : frac_fits p8) by compute_hyp. assert (Rm : roomy p8) by compute_hyp. assert (H8 : cH p8 = 8 -> cN p8 + ces p8 < 8 -> cF p8 <= 32) by compute_hyp.
  assert (S : 2 * (cN p8 - 2 + maxk p8) * 2 ^ ces p8 + Z.max (Z.min (Z.log2 (Z.of_nat (length l) - 1)) (cF p8 - 1)) (if cF p8 <? 32 then 0 else 2) < Z.max 32 (cF p8)).
  { change (2 * (cN p8 - 2 + maxk p8) * 2 ^ ces p8) with 24. change (cF p8) with 8. cbn [Z.ltb Z.compare]. change (if 8 <? 32 then 0 else 2) with 0. lia. }
  destruct (dot_mixed p8 l valid_p8 X FF Rm H8 R N S) as (r & x & E & T & _). exists r. split; [exact E|].
  pose proof valid_p8 as V. vcb V. exact (rounds_tz_real p8 BN Bes _ _ T).
Qed.
(** One rounding at the end. *)
Lemma dot_rounds c l : valid_cfg c -> exp_ok c -> frac_fits c -> roomy c -> (cH c = 8 -> cN c + ces c < 8 -> cF c <= 32) -> dot_real c l ->
  Z.of_nat (length l) < 2 ^ 31 -> 2 * (cN c - 2 + maxk c) * 2 ^ ces c + Z.max 1 (Z.log2 (Z.of_nat (length l) - 1)) + 2 <= cF c ->
  exists r, p_dot c l = Ok r /\ rounds_tz c (dot_exact c l) r.
Proof.
  intros V X FF Rm H8 R N S.
  destruct (dot_mixed c l V X FF Rm H8 R N) as (r & x & E & T & _ & EX).
  - destruct (Z.ltb_spec (cF c) 32); lia.
  - exists r. split; [exact E|]. pose proof V as V'. vcb V'. apply (rounds_tz_comp c BN Bes x); [apply EX; lia|exact T].
Qed.

Lemma dot_exact_perm c l l' : Permutation l l' -> (dot_exact c l == dot_exact c l')%Q.
Proof.
  unfold dot_exact. induction 1; cbn [fold_right]; [reflexivity|rewrite IHPermutation; reflexivity|ring|]. rewrite IHPermutation1. exact IHPermutation2.
Qed.
Lemma dot_perm c l l' : valid_cfg c -> exp_ok c -> frac_fits c -> roomy c -> (cH c = 8 -> cN c + ces c < 8 -> cF c <= 32) -> dot_real c l ->
  Z.of_nat (length l) < 2 ^ 31 -> 2 * (cN c - 2 + maxk c) * 2 ^ ces c + Z.max 1 (Z.log2 (Z.of_nat (length l) - 1)) + 2 <= cF c ->
  Permutation l l' -> p_dot c l = p_dot c l'.
Proof.
  intros V X FF Rm H8 R N S P. pose proof V as V'. vcb V'. destruct (dot_rounds c l V X FF Rm H8 R N S) as (r & E & T).
  assert (R' : dot_real c l') by (unfold dot_real in *; rewrite <- P; exact R).
  rewrite (Permutation_length P) in N, S. destruct (dot_rounds c l' V X FF Rm H8 R' N S) as (r' & E' & T').
  rewrite E, E'. f_equal. apply (rounds_tz_unique c BN Bes (dot_exact c l)); [exact T|]. apply (rounds_tz_comp c BN Bes (dot_exact c l')); [symmetry; apply dot_exact_perm; exact P|exact T'].
Qed.

Lemma fma_is_sum c a b d : valid_cfg c -> exp_ok c -> mul_fits c -> real c a -> real c b -> real c d ->
  p_fma c a b d = p_dot c [(a, b); (d, p_one c)] /\ (value c d * value c (p_one c) == value c d)%Q /\ real c (p_one c).
Proof.
  intros V X MF A B D. assert (FF : frac_fits c) by (unfold mul_fits, frac_fits in *; lia).
  destruct (constants c V) as (_ & VO & _ & _ & _ & RO & _). split; [|split; [rewrite VO; ring|exact RO]].
  destruct (Z.eq_dec d 0) as [->|ND].
  - rewrite (proj1 (fma_degenerate c a b 0 V X MF A B D)). rewrite (dot_zero_term c 0 (p_one c) [] (a, b) V FF D RO (or_introl eq_refl)). symmetry. apply dot_one.
  - symmetry. exact (dot_two c a b d V MF A B D ND).
Qed.
Lemma two_products_rounds c a b d g : valid_cfg c -> exp_ok c -> frac_fits c -> roomy c -> (cH c = 8 -> cN c + ces c < 8 -> cF c <= 32) ->
  real c a -> real c b -> real c d -> real c g -> 2 * (cN c - 2 + maxk c) * 2 ^ ces c + 2 < cF c ->
  exists r, p_dot c [(a, b); (d, g)] = Ok r /\ rounds_tz c (value c a * value c b + value c d * value c g) r.
Proof.
  intros V X FF Rm H8 A B D G S. pose proof V as V'. vcb V'.
  destruct (dot_rounds c [(a, b); (d, g)] V X FF Rm H8) as (r & E & T).
  - constructor; [split; assumption|]. constructor; [split; assumption|constructor].
  - cbn [length]. lia.
  - cbn [length]. change (Z.log2 (Z.of_nat 2 - 1)) with 0. lia.
  - exists r. split; [exact E|]. apply (rounds_tz_comp c BN Bes (dot_exact c [(a, b); (d, g)])); [|exact T]. unfold dot_exact. cbn [fold_right fst snd]. ring.
Qed.
Lemma fma_rounds c a b d : valid_cfg c -> exp_ok c -> roomy c -> (cH c = 8 -> cN c + ces c < 8 -> cF c <= 32) ->
  real c a -> real c b -> real c d -> 2 * (cN c - 2 + maxk c) * 2 ^ ces c + 2 < cF c ->
  exists r, p_fma c a b d = Ok r /\ rounds_tz c (value c a * value c b + value c d) r.
Proof.
  intros V X Rm H8 A B D S. pose proof V as V'. vcb V'. pose proof (top_L c V) as TL. pow_pos 2 (ces c).
  assert (MF : mul_fits c) by (unfold mul_fits; nia). assert (FF : frac_fits c) by (unfold mul_fits, frac_fits in *; lia).
  destruct (fma_is_sum c a b d V X MF A B D) as (E1 & E2 & RO).
  destruct (two_products_rounds c a b d (p_one c) V X FF Rm H8 A B D RO S) as (r & E & T). exists r. split; [congruence|].
  apply (rounds_tz_comp c BN Bes (value c a * value c b + value c d * value c (p_one c))%Q); [rewrite E2; reflexivity|exact T].
Qed.
Lemma sum_rounds c a b d g : valid_cfg c -> exp_ok c -> roomy c -> (cH c = 8 -> cN c + ces c < 8 -> cF c <= 32) ->
  real c a -> real c b -> real c d -> real c g -> 2 * (cN c - 2 + maxk c) * 2 ^ ces c + 2 < cF c ->
  exists r, pm_add c (a, b) (d, g) = Ok r /\ rounds_tz c (value c a * value c b + value c d * value c g) r.
Proof.
  intros V X Rm H8 A B D G S. pose proof V as V'. vcb V'. pose proof (top_L c V) as TL. pow_pos 2 (ces c). rewrite pm_add_dot.
  apply two_products_rounds; try assumption. unfold frac_fits. nia.
Qed.
(** The 8 bit type with a 64 bit FT: vectors of every length. *)
Lemma dot_rounds8 l : dot_real (Cfg 8 8 0 64 WithNan) l -> Z.of_nat (length l) < 2 ^ 31 ->
  exists r, p_dot (Cfg 8 8 0 64 WithNan) l = Ok r /\ rounds_tz (Cfg 8 8 0 64 WithNan) (dot_exact (Cfg 8 8 0 64 WithNan) l) r.
Proof.
  intros R N. assert (V : valid_cfg (Cfg 8 8 0 64 WithNan)) by cfg_tac. set (c := Cfg 8 8 0 64 WithNan) in *. assert (X : exp_ok c) by compute_hyp. assert (FF : frac_fits c) by compute_hyp. assert (Rm : roomy c) by compute_hyp.
  apply dot_rounds; try assumption.
  - intros _ B. exfalso. revert B. vm_compute. discriminate.
  - change (2 * (cN c - 2 + maxk c) * 2 ^ ces c) with 24. change (cF c) with 64.
    assert (Z.log2 (Z.of_nat (length l) - 1) <= 31) by (change 31 with (Z.log2 (2 ^ 31)); apply Z.log2_le_mono; lia). lia.
Qed.
Definition cancel : list (Z * Z) := [(126, 126); (1, 1); (-126, 126)].
Definition cancel' : list (Z * Z) := [(126, 126); (-126, 126); (1, 1)].
Lemma cancel_real : dot_real p8 cancel.
Proof. unfold cancel, dot_real. repeat (constructor; [cbn [fst snd]; unfold real; vm_compute; repeat split; discriminate|]). constructor. Qed.
Lemma cancel_perm : Permutation cancel cancel'.
Proof. unfold cancel, cancel'. apply perm_skip. apply perm_swap. Qed.
Lemma cancel_dot : p_dot p8 cancel = Ok 0 /\ p_dot p8 cancel' = Ok 1 /\ ~ rounds_tz p8 (dot_exact p8 cancel) 0.
Proof.
  split; [vm_compute; reflexivity|]. split; [vm_compute; reflexivity|]. intros [[Z _]|[[P (_ & P0 & _)]|[P _]]].
  - vm_compute in Z. discriminate Z.
  - vm_compute in P0. discriminate P0.
  - vm_compute in P. discriminate P.
Qed.
