(** Error of the dot product over any number of elements. *)
From Coq Require Import ZArith QArith Qabs Qpower Lia Lqa Bool List.
From Verif Require Import Res CInt Bits Traits Unpacked Cfg Posit Spec QPow Core SpecLemmas Arith
  DecodeProof EncodeProof UOps UAdd Ops OpsAdd OpsUnary OpsUnary2 Specials Room Laws Configs Final1 Final2 Examples Final3 Fma Conv3 Misc2 SpecDot.
Import ListNotations.
Open Scope Z_scope.

(** An aligned significand is the number cut to the common unit. *)
Lemma align_bounds F M e f : is_width F -> 0 <= f < 2 ^ F -> e <= M ->
  (dy (sig2 F f / 2 ^ (M - e)) (M + 2 - F) <= uabs F e f)%Q /\
  (uabs F e f < dy (sig2 F f / 2 ^ (M - e) + 1) (M + 2 - F))%Q.
Proof.
  intros W H L. pose proof (is_width_pos F W) as BF.
  assert (E4 : 2 ^ F = 2 ^ (F - 2) * 4).
  { change 4 with (2 ^ 2). rewrite <- Z.pow_add_r by lia. f_equal. lia. }
  assert (ES : sig2 F f = (2 ^ F + f) / 4) by (unfold sig2; rewrite E4, Z.div_add_l by lia; reflexivity).
  rewrite ES. pow_pos 2 (M - e). rewrite Z.div_div by lia.
  assert (EP : 4 * 2 ^ (M - e) = 2 ^ (M - e + 2)) by (rewrite Z.pow_add_r by lia; change (2 ^ 2) with 4; lia).
  rewrite EP. pow_pos 2 (M - e + 2). set (p := 2 ^ (M - e + 2)) in *.
  pose proof (Z.div_mod (2 ^ F + f) p ltac:(lia)) as D. pose proof (Z.mod_pos_bound (2 ^ F + f) p ltac:(lia)) as B.
  set (q := (2 ^ F + f) / p) in *. unfold uabs.
  rewrite (dy_align q _ (e - F)), (dy_align (q + 1) _ (e - F)) by lia.
  replace (M + 2 - F - (e - F)) with (M - e + 2) by lia. fold p.
  split; [apply dy_le; lia|apply dy_lt; lia].
Qed.

Lemma cshl_ub t a n : n < 0 \/ iw t <= n -> cshl t a n = UB ShiftCount.
Proof.
  intros H. unfold cshl. destruct (Z.ltb_spec n 0), (Z.leb_spec (iw t) n); try lia; reflexivity.
Qed.

Lemma normalized_ub F E n e fr : is_width F -> is_width E -> 0 < fr < 2 ^ F -> pw F <= F - Z.log2 fr ->
  - 2 ^ (E - 1) <= e - (F - 1 - Z.log2 fr) < 2 ^ (E - 1) ->
  u_normalized F E (U Regular n e fr) = UB ShiftCount.
Proof.
  intros WF WE B K X. unfold u_normalized. cbn [ufrac uexp uneg]. destruct (Z.eqb_spec fr 0); [lia|].
  rewrite clz_spec by assumption. cbn [bind]. unfold csub. rewrite pE_arith by assumption. cbn [bind].
  rewrite cshl_ub; [reflexivity|]. unfold pF. rewrite iw_prom_uint by assumption. lia.
Qed.

(** Value of a Regular or Zero unpacked number. *)
Definition wval (F : Z) (w : unpacked) : Q :=
  match utyp w with Regular => uval F (uneg w) (uexp w) (ufrac w) | _ => 0%Q end.

Lemma sgn_sum na nb A B u : 0 <= A -> 0 <= B ->
  (sgq (addneg na nb A B) (dy (addfrac na nb A B) u) == sgq na (dy A u) + sgq nb (dy B u))%Q.
Proof.
  intros HA HB. unfold addneg, addfrac. destruct na, nb; cbn [Bool.eqb sgq].
  - rewrite <- dy_add. ring.
  - rewrite Z.gtb_ltb. destruct (Z.ltb_spec B A); cbn [sgq].
    + replace (Z.abs (A - B)) with (A + - B) by lia. rewrite <- dy_add, <- dy_opp. ring.
    + replace (Z.abs (A - B)) with (B + - A) by lia. rewrite <- dy_add, <- dy_opp. ring.
  - rewrite Z.gtb_ltb. destruct (Z.ltb_spec B A); cbn [sgq].
    + replace (Z.abs (A - B)) with (A + - B) by lia. rewrite <- dy_add, <- dy_opp. ring.
    + replace (Z.abs (A - B)) with (B + - A) by lia. rewrite <- dy_add, <- dy_opp. ring.
  - rewrite <- dy_add. ring.
Qed.

Lemma addfrac_le na nb A B : 0 <= A -> 0 <= B -> 0 <= addfrac na nb A B <= A + B.
Proof. intros. unfold addfrac. destruct (Bool.eqb na nb); lia. Qed.

(** Addition of any two unpacked numbers: absolute error below 2^(3-F) times the larger, never a larger
    magnitude than the sum of the magnitudes. *)
Lemma u_add_err F E na nb ea eb fa fb : is_width F -> is_width E ->
  0 <= fa < 2 ^ F -> 0 <= fb < 2 ^ F ->
  - 2 ^ (E - 1) <= ea - eb < 2 ^ (E - 1) -> - 2 ^ (E - 1) <= eb - ea < 2 ^ (E - 1) ->
  Z.max ea eb + 1 < 2 ^ (E - 1) -> - 2 ^ (E - 1) <= Z.max ea eb + 2 - F ->
  u_add F E (U Regular na ea fa) (U Regular nb eb fb) = UB ShiftCount \/
  exists w, u_add F E (U Regular na ea fa) (U Regular nb eb fb) = Ok w /\
    (w = u_special Zero false \/ exists n e f, w = U Regular n e f /\ 0 <= f < 2 ^ F /\ Z.max ea eb + 2 - F <= e) /\
    (Qabs (wval F w) <= uabs F ea fa + uabs F eb fb)%Q /\
    (Qabs (wval F w - (uval F na ea fa + uval F nb eb fb)) <= pow2 (3 - F) * (uabs F ea fa + uabs F eb fb))%Q.
Proof.
  intros WF WE Ha Hb D1 D2 D3 D4. pose proof (is_width_pos F WF) as BF. pose proof (is_width_pos E WE) as BE.
  destruct (Z_lt_le_dec (Z.abs (ea - eb)) (pw F)) as [NR|FR].
  2:{ left. apply u_add_ub; try assumption; lia. }
  rewrite u_add_eq by (assumption || lia). set (M := Z.max ea eb) in *.
  destruct (align_bounds F M ea fa WF Ha ltac:(lia)) as [A1 A2].
  destruct (align_bounds F M eb fb WF Hb ltac:(lia)) as [B1 B2].
  assert (E4 : 2 ^ F = 4 * 2 ^ (F - 2)).
  { change 4 with (2 ^ 2). rewrite <- Z.pow_add_r by lia. f_equal. lia. }
  pose proof (sig2_bounds F fa WF Ha) as SA. pose proof (sig2_bounds F fb WF Hb) as SB.
  assert (DB : forall s n, 0 <= s -> 0 <= n -> 0 <= s / 2 ^ n <= s).
  { intros s n H0 H1. pow_pos 2 n. split; [apply Z.div_pos; lia|apply Z.div_le_upper_bound; nia]. }
  pose proof (DB (sig2 F fa) (M - ea) ltac:(lia) ltac:(lia)) as BA.
  pose proof (DB (sig2 F fb) (M - eb) ltac:(lia) ltac:(lia)) as BB.
  set (A := sig2 F fa / 2 ^ (M - ea)) in *. set (B := sig2 F fb / 2 ^ (M - eb)) in *. clearbody A B.
  pose proof (sgn_sum na nb A B (M + 2 - F) ltac:(lia) ltac:(lia)) as SG.
  pose proof (addfrac_le na nb A B ltac:(lia) ltac:(lia)) as FL.
  set (fr := addfrac na nb A B) in *. set (n := addneg na nb A B) in *. clearbody fr n.
  assert (BFr : fr < 2 ^ F) by lia.
  (* the numeric part *)
  assert (NUM : (Qabs (sgq n (dy fr (M + 2 - F))) <= uabs F ea fa + uabs F eb fb)%Q /\
     (Qabs (sgq n (dy fr (M + 2 - F)) - (uval F na ea fa + uval F nb eb fb)) <= pow2 (3 - F) * (uabs F ea fa + uabs F eb fb))%Q).
  { split.
    - assert (QE : (Qabs (sgq n (dy fr (M + 2 - F))) == dy fr (M + 2 - F))%Q).
      { assert (0 <= dy fr (M + 2 - F))%Q by (rewrite <- (dy_0 (M + 2 - F)); apply dy_le; lia).
        destruct n; cbn [sgq]; rewrite ?Qabs_opp; apply Qabs_pos; assumption. }
      rewrite QE. pose proof (dy_le fr (A + B) (M + 2 - F) ltac:(lia)) as L. rewrite <- dy_add in L. lra.
    - rewrite SG, !uval_abs.
      rewrite <- dy_add in A2, B2. 
      assert (U1 : (dy 1 (M + 2 - F) + dy 1 (M + 2 - F) == pow2 (3 - F) * pow2 M)%Q).
      { rewrite dy_add. change (1 + 1) with (1 * 2 ^ 1). rewrite dy_pow by lia. unfold dy.
        replace (M + 2 - F + 1) with (3 - F + M) by lia. rewrite pow2_plus. change (inject_Z 1) with 1%Q. ring. }
      assert (U2 : (pow2 M <= uabs F ea fa + uabs F eb fb)%Q).
      { pose proof (proj1 (uabs_scale F ea fa ltac:(lia) Ha)) as S1. pose proof (proj1 (uabs_scale F eb fb ltac:(lia) Hb)) as S2.
        pose proof (pow2_pos ea) as P1. pose proof (pow2_pos eb) as P2.
        destruct (Z.max_spec ea eb) as [[_ K]|[_ K]]; unfold M; rewrite K; lra. }
      assert (U3 : (pow2 (3 - F) * pow2 M <= pow2 (3 - F) * (uabs F ea fa + uabs F eb fb))%Q) by (apply Qmult_le_l; [apply pow2_pos|exact U2]).
      rewrite <- U1 in U3. 
      set (xa := uabs F ea fa) in *. set (xb := uabs F eb fb) in *. set (dA := dy A (M + 2 - F)) in *. set (dB := dy B (M + 2 - F)) in *.
      set (o := dy 1 (M + 2 - F)) in *. set (t := (pow2 (3 - F) * (xa + xb))%Q) in *. clearbody xa xb dA dB o t.
      apply Qabs_Qle_condition. destruct na, nb; cbn [sgq]; split; lra. }
  destruct (Z.eq_dec fr 0) as [Z0|NZ].
  { right. exists (u_special Zero false). subst fr. split; [reflexivity|]. split; [left; reflexivity|].
    assert (EW : (sgq n (dy 0 (M + 2 - F)) == 0)%Q) by (destruct n; cbn [sgq]; rewrite dy_0; reflexivity).
    rewrite EW in NUM. exact NUM. }
  pose proof (Z.log2_nonneg fr) as LN.
  destruct (Z_lt_le_dec (F - Z.log2 fr) (pw F)) as [K|K].
  2:{ left. apply normalized_ub; try assumption; try lia. }
  right. assert (LF : Z.log2 fr < F) by (apply Z.log2_lt_pow2; lia).
  destruct (u_normalized_spec F E n (M + 1) fr WF WE ltac:(lia) K ltac:(lia)) as [N1 [N2 N3]].
  eexists. split; [exact N1|]. split.
  { right. eexists _, _, _. split; [reflexivity|]. split; [assumption|lia]. }
  pose proof (norm_val F (M + 1) fr WF ltac:(lia)) as NV. replace (M + 1 + 1 - F) with (M + 2 - F) in NV by lia.
  assert (EW : (wval F (U Regular n (M + 1 - (F - 1 - Z.log2 fr)) (fr * 2 ^ (F - Z.log2 fr) - 2 ^ F)) == sgq n (dy fr (M + 2 - F)))%Q).
  { unfold wval. cbn [utyp uneg uexp ufrac]. rewrite uval_abs. apply sgq_comp. exact NV. }
  rewrite EW. exact NUM.
Qed.

Lemma dot_E c : valid_cfg c -> (cH c = 8 -> cN c + ces c < 8 -> cF c <= 32) -> 4 * emax c + cF c + 40 < 2 ^ (c_E c - 1).
Proof.
  intros V H8. vcb V. pose proof (vc_H _ V) as WH. pose proof (vc_F _ V) as WF.
  pose proof (vc_es_int _ V) as E30. pose proof (vc_64 _ V) as V64. pose proof (vc_N _ V) as HN. pose proof (vc_es _ V) as HE.
  assert (F64 : cF c <= 64) by (unfold is_width in WF; lia).
  unfold emax, c_E. rewrite Z.geb_leb.
  assert (G : forall n, 8 <= n -> 8 * (n - 2) < 2 ^ n).
  { intros n Hn. replace n with (8 + Z.of_nat (Z.to_nat (n - 8))) by lia.
    induction (Z.to_nat (n - 8)) as [|m IH]; [reflexivity|].
    replace (8 + Z.of_nat (S m)) with ((8 + Z.of_nat m) + 1) by lia. rewrite pow2_S by lia. lia. }
  assert (SM : cN c < 8 -> (cN c - 2) * 2 ^ ces c <= 80).
  { intros L. assert (P16 : 2 ^ ces c <= 2 ^ 4) by (apply pow2_mono; lia). change (2 ^ 4) with 16 in P16. pow_pos 2 (ces c). nia. }
  pow_pos 2 (ces c).
  destruct (Z.leb_spec (cH c) (cN c + ces c)) as [L|L].
  - (* 2H *)
    destruct (Z_lt_le_dec (cN c) 8) as [S8|S8].
    + specialize (SM S8). assert (2 ^ 15 <= 2 ^ (2 * cH c - 1)) by (apply pow2_mono; unfold is_width in WH; lia). change (2 ^ 15) with 32768 in *. lia.
    + specialize (G _ S8). assert (X : 2 ^ (cN c + ces c) <= 2 ^ (2 * cH c - 3)) by (apply pow2_mono; lia).
      rewrite Z.pow_add_r in X by lia.
      assert (Y : 2 ^ (2 * cH c - 1) = 4 * 2 ^ (2 * cH c - 3)) by (change 4 with (2 ^ 2); rewrite <- Z.pow_add_r by (unfold is_width in WH; lia); f_equal; lia).
      assert (Z1 : 2 ^ 13 <= 2 ^ (2 * cH c - 3)) by (apply pow2_mono; unfold is_width in WH; lia). change (2 ^ 13) with 8192 in Z1.
      rewrite Y. nia.
  - destruct WH as [W|WH].
    + rewrite W in *. specialize (H8 eq_refl ltac:(lia)). change (2 ^ (8 - 1)) with 128.
      assert (K : (cN c - 2) * 2 ^ ces c <= 12); [|lia].
      assert (KE : ces c = 0 \/ ces c = 1 \/ ces c = 2) by lia.
      destruct KE as [K|[K|K]]; rewrite K in *; [change (2 ^ 0) with 1|change (2 ^ 1) with 2|change (2 ^ 2) with 4]; lia.
    + assert (HL : 16 <= cH c) by lia. destruct (Z_lt_le_dec (cN c) 8) as [S8|S8].
      * specialize (SM S8). assert (2 ^ 15 <= 2 ^ (cH c - 1)) by (apply pow2_mono; lia). change (2 ^ 15) with 32768 in *. lia.
      * specialize (G _ S8). assert (X : 2 ^ (cN c + ces c) <= 2 ^ (cH c - 1)) by (apply pow2_mono; lia).
        rewrite Z.pow_add_r in X by lia.
        assert (Z1 : 2 ^ 15 <= 2 ^ (cH c - 1)) by (apply pow2_mono; lia). change (2 ^ 15) with 32768 in Z1.
        nia.
Qed.

Section DotError.
Variable c : cfg.
Hypothesis V : valid_cfg c.
Hypothesis FF : frac_fits c.
Hypothesis H8 : cH c = 8 -> cN c + ces c < 8 -> cF c <= 32.
Notation F := (cF c).
Notation m2 := (2 * emax c).

Definition grow (k : Z) : Q := ((1 + pow2 (4 - F)) ^ k)%Q.

Lemma grow_S k : 0 <= k -> (grow (k + 1) == (1 + pow2 (4 - F)) * grow k)%Q.
Proof using.
  intros H. unfold grow. pose proof (pow2_pos (4 - F)). rewrite Qpower_plus by lra. change ((1 + pow2 (4 - F)) ^ 1)%Q with (1 + pow2 (4 - F))%Q. ring.
Qed.
Lemma grow_ge k : 0 <= k -> (1 <= grow k)%Q.
Proof using.
  intros H. rewrite <- (Z2Nat.id k H). induction (Z.to_nat k) as [|n IH]; [apply Qle_refl|].
  rewrite Nat2Z.inj_succ. replace (Z.succ (Z.of_nat n)) with (Z.of_nat n + 1) by lia. rewrite grow_S by lia.
  pose proof (pow2_pos (4 - F)). set (g := grow (Z.of_nat n)) in *. set (u := pow2 (4 - F)) in *. clearbody g u. nra.
Qed.

(** One product. *)
Definition term (x : Q) (w : unpacked) : Prop :=
  (Qabs x < pow2 (m2 + 2))%Q /\
  ((w = u_zero /\ (x == 0)%Q) \/
   exists n e f, w = U Regular n e f /\ 0 <= f < 2 ^ F /\ - m2 <= e <= m2 + 1 /\
     (uabs F e f <= Qabs x)%Q /\ (Qabs (uval F n e f - x) <= pow2 (3 - F) * Qabs x)%Q).

Lemma uprod_term x y : real c x -> real c y -> exists w, uprod c (x, y) = Ok w /\ term (value c x * value c y) w.
Proof using V FF.
  intros Rx Ry. vcb V. destruct (emax_bound c V) as [B1 B2]. pose proof (is_width_pos _ (vc_F _ V)) as BF.
  unfold uprod. cbn [fst snd].
  assert (Z : x = 0 \/ y = 0 -> exists w, uprod c (x, y) = Ok w /\ term (value c x * value c y) w).
  { intros Z. exists u_zero. split.
    - assert (K : forall v, real c v -> exists w, unpack c v = Ok w /\ (w = U Zero false 0 0 \/ exists n e f, w = U Regular n e f)).
      { intros v Rv. destruct (Z.eq_dec v 0) as [->|Nv].
        - rewrite unpack_zero by assumption. eauto.
        - unfold frac_fits in FF. rewrite <- gran_val in FF.
          destruct (unpack_real c v 0 V ltac:(lia) ltac:(lia) Rv Nv) as [e1 [f1 [U1 _]]]. eauto 8. }
      unfold uprod. cbn [fst snd]. destruct Z as [-> | ->]; rewrite unpack_zero by assumption.
      + destruct (K y Ry) as [w [-> [->|[n [e [f ->]]]]]]; reflexivity.
      + destruct (K x Rx) as [w [-> [->|[n [e [f ->]]]]]]; reflexivity.
    - assert (X : (value c x * value c y == 0)%Q).
      { assert (V0 : (value c 0 == 0)%Q) by reflexivity. destruct Z as [-> | ->]; rewrite V0; ring. }
      split; [rewrite X; apply pow2_pos|]. left. split; [reflexivity|exact X]. }
  destruct (Z.eq_dec x 0) as [Ex|Nx]; [apply Z; auto|]. destruct (Z.eq_dec y 0) as [Ey|Ny]; [apply Z; auto|]. clear Z.
  unfold frac_fits in FF. rewrite <- gran_val in FF.
  destruct (unpack_real c x 0 V ltac:(lia) ltac:(lia) Rx Nx) as (e1 & f1 & U1 & H1 & E1 & _ & V1).
  destruct (unpack_real c y 0 V ltac:(lia) ltac:(lia) Ry Ny) as (e2 & f2 & U2 & H2 & E2 & _ & V2).
  rewrite U1, U2. cbn [bind]. set (nx := x <? 0) in *. set (ny := y <? 0) in *.
  destruct (mul_error F (c_E c) nx ny e1 e2 f1 f2 (vc_F _ V) (c_E_width c V) H1 H2 ltac:(lia) ltac:(lia)) as (e & f & M1 & Hf & L1 & L2 & _).
  destruct (u_mul_spec F (c_E c) nx ny e1 e2 f1 f2 (vc_F _ V) (c_E_width c V) H1 H2 ltac:(lia) ltac:(lia)) as (e' & f' & j & M2 & _ & Ee & _).
  rewrite M1 in M2. injection M2 as <- <-.
  exists (U Regular (xorb nx ny) e f). split; [exact M1|]. 
  cbv zeta in L1, L2. rewrite Qabs_Qmult, !uvalue_abs in L1, L2 by lia.
  pose proof (uabs_scale F e1 f1 ltac:(lia) H1) as [S1 S1']. pose proof (uabs_scale F e2 f2 ltac:(lia) H2) as [S2 S2'].
  pose proof (uabs_pos F e1 f1 ltac:(lia) ltac:(lia)) as P1. pose proof (uabs_pos F e2 f2 ltac:(lia) ltac:(lia)) as P2.
  pose proof (uabs_pos F e f ltac:(lia) ltac:(lia)) as P.
  assert (X : (value c x * value c y == sgq (xorb nx ny) (uabs F e1 f1 * uabs F e2 f2))%Q).
  { rewrite V1, V2, !uval_abs. apply sgq_mul. }
  assert (PP : (0 < uabs F e1 f1 * uabs F e2 f2)%Q) by (clear - P1 P2; nra).
  assert (AX : (Qabs (value c x * value c y) == uabs F e1 f1 * uabs F e2 f2)%Q).
  { rewrite X. destruct (xorb nx ny); cbn [sgq]; rewrite ?Qabs_opp; apply Qabs_pos; lra. }
  assert (UB : (uabs F e1 f1 * uabs F e2 f2 < pow2 (m2 + 2))%Q).
  { assert (Q1 : (uabs F e1 f1 < pow2 (emax c + 1))%Q) by (eapply Qlt_le_trans; [exact S1'|apply pow2_le; lia]).
    assert (Q2 : (uabs F e2 f2 < pow2 (emax c + 1))%Q) by (eapply Qlt_le_trans; [exact S2'|apply pow2_le; lia]).
    replace (m2 + 2) with ((emax c + 1) + (emax c + 1)) by lia. rewrite pow2_plus.
    set (p := pow2 (emax c + 1)) in *. set (a := uabs F e1 f1) in *. set (b := uabs F e2 f2) in *. clearbody p a b. clear - P1 P2 Q1 Q2. nra. }
  split; [rewrite AX; exact UB|]. right. exists (xorb nx ny), e, f. split; [reflexivity|]. split; [assumption|]. split; [lia|].
  rewrite AX. split; [exact L1|].
  rewrite uval_abs, X. set (p := (uabs F e1 f1 * uabs F e2 f2)%Q) in *. set (r := uabs F e f) in *. set (v := pow2 (3 - F)) in *. clearbody p r v.
  apply Qabs_Qle_condition. destruct (xorb nx ny); cbn [sgq]; split; lra.
Qed.

(** The running sum after [k] terms of sum [S] and magnitude [T]. *)
Definition inv (k : Z) (S T : Q) (w : unpacked) : Prop :=
  1 <= k /\ (0 <= T)%Q /\ (T <= inject_Z k * pow2 (m2 + 2))%Q /\
  (Qabs (wval F w) <= T)%Q /\ (Qabs (wval F w - S) <= (grow k - 1) * T)%Q /\
  (w = u_zero \/ exists n e f, w = U Regular n e f /\ 0 <= f < 2 ^ F /\ - m2 - F <= e).

Lemma wval_reg n e f : (wval F (U Regular n e f) = uval F n e f)%Q. Proof using. reflexivity. Qed.
Lemma wval_zero : wval F u_zero = 0%Q. Proof using. reflexivity. Qed.

Lemma uval_qabs n e f : 0 <= f < 2 ^ F -> (Qabs (uval F n e f) == uabs F e f)%Q.
Proof using V.
  intros H. pose proof (is_width_pos _ (vc_F _ V)). rewrite uval_abs. pose proof (uabs_pos F e f ltac:(lia) ltac:(lia)).
  destruct n; cbn [sgq]; rewrite ?Qabs_opp; apply Qabs_pos; lra.
Qed.

Lemma v_half : (pow2 (4 - F) == 2 * pow2 (3 - F))%Q.
Proof using. replace (4 - F) with (1 + (3 - F)) by lia. rewrite pow2_plus. reflexivity. Qed.

Lemma inv_first x w : term x w -> inv 1 x (Qabs x) w.
Proof using V.
  intros [B H]. pose proof (Qabs_nonneg x) as N. unfold inv.
  assert (G : (grow 1 - 1 == pow2 (4 - F))%Q) by (unfold grow; change ((1 + pow2 (4 - F)) ^ 1)%Q with (1 + pow2 (4 - F))%Q; ring).
  pose proof (pow2_pos (3 - F)) as PV.
  split; [lia|]. split; [assumption|]. split; [change (inject_Z 1) with 1%Q; lra|].
  rewrite G, v_half. set (v := pow2 (3 - F)) in *. 
  destruct H as [[-> X]|(n & e & f & -> & Hf & He & L & Er)].
  - rewrite wval_zero, X. change (Qabs 0) with 0%Q. split; [lra|]. split; [|left; reflexivity].
    change (Qabs (0 - 0)) with 0%Q. lra.
  - rewrite wval_reg. split; [rewrite uval_qabs by assumption; exact L|]. split.
    + clearbody v. eapply Qle_trans; [exact Er|]. set (q := Qabs x) in *. clearbody q. nra.
    + right. exists n, e, f. split; [reflexivity|]. split; [assumption|]. pose proof (is_width_pos _ (vc_F _ V)). lia.
Qed.

Lemma inv_step k S T s x w : inv k S T s -> term x w -> k < 2 ^ 31 ->
  u_add F (c_E c) s w = UB ShiftCount \/
  exists s', u_add F (c_E c) s w = Ok s' /\ inv (k + 1) (S + x) (T + Qabs x) s'.
Proof using V H8.
  intros (Hk & T0 & TB & WB & ER & SH) [XB TM] K31. pose proof (is_width_pos _ (vc_F _ V)) as BF.
  pose proof (Qabs_nonneg x) as N. pose proof (pow2_pos (3 - F)) as PV. pose proof (grow_ge k ltac:(lia)) as GG.
  pose proof (emax_bound c V) as [EB _]. pose proof (dot_E c V H8) as DE.
  (* it suffices to bound the value *)
  assert (FIN : forall s', (Qabs (wval F s') <= T + Qabs x)%Q ->
    (Qabs (wval F s' - (wval F s + wval F w)) <= pow2 (3 - F) * (Qabs (wval F s) + Qabs (wval F w)))%Q ->
    (s' = u_zero \/ exists n e f, s' = U Regular n e f /\ 0 <= f < 2 ^ F /\ - m2 - F <= e) ->
    inv (k + 1) (S + x) (T + Qabs x) s').
  { intros s' A1 A2 A3. unfold inv. split; [lia|]. split; [lra|]. split.
    { rewrite inject_Z_plus. change (inject_Z 1) with 1%Q. set (b := pow2 (m2 + 2)) in *. clearbody b. lra. }
    split; [exact A1|]. split; [|exact A3].
    rewrite grow_S by lia. rewrite v_half. set (v := pow2 (3 - F)) in *. set (g := grow k) in *.
    assert (WX : (Qabs (wval F w) <= Qabs x)%Q /\ (Qabs (wval F w - x) <= v * Qabs x)%Q).
    { destruct TM as [[-> X]|(n & e & f & -> & Hf & He & L & Er)].
      - rewrite wval_zero, X. change (Qabs 0) with 0%Q. split; [lra|]. change (Qabs (0 - 0)) with 0%Q. lra.
      - rewrite wval_reg. split; [rewrite uval_qabs by assumption; exact L|exact Er]. }
    destruct WX as [WX1 WX2].
    set (a := wval F s') in *. set (b := wval F s) in *. set (d := wval F w) in *.
    assert (E : (a - (S + x) == (a - (b + d)) + ((b - S) + (d - x)))%Q) by ring. rewrite E.
    eapply Qle_trans; [apply Qabs_triangle|].
    assert (TR : (Qabs ((b - S) + (d - x)) <= Qabs (b - S) + Qabs (d - x))%Q) by apply Qabs_triangle.
    set (q1 := Qabs (a - (b + d))) in *. set (q2 := Qabs (b - S + (d - x))) in *. set (q3 := Qabs (b - S)) in *. set (q4 := Qabs (d - x)) in *.
    set (q5 := Qabs b) in *. set (q6 := Qabs d) in *. set (X := Qabs x) in *.
    clearbody q1 q2 q3 q4 q5 q6 X v g. clear - T0 N PV GG WB ER A2 WX1 WX2 TR.
    (* q1 + q2 <= v (T + X) + (g-1) T + v X *)
    assert (C1 : (v * (q5 + q6) <= v * (T + X))%Q) by (apply Qmult_le_l; lra).
    assert (C2 : (0 <= v * (g - 1) * T)%Q) by (assert (0 <= (g - 1) * T)%Q by nra; nra).
    assert (C3 : (0 <= v * (g - 1) * X)%Q) by (assert (0 <= (g - 1) * X)%Q by nra; nra).
    assert (C4 : (0 <= (g - 1) * X)%Q) by nra. assert (C5 : (0 <= v * T)%Q) by nra.
    assert (R : (((1 + 2 * v) * g - 1) * (T + X) == (g - 1) * T + v * (T + X) + v * X + (v * T + 2 * (v * (g - 1) * T) + 2 * (v * (g - 1) * X) + (g - 1) * X))%Q) by ring.
    rewrite R. lra. }
  destruct SH as [->|(n & e & f & -> & Hf & He)].
  - right. exists w. split.
    { destruct TM as [[-> _]|(n' & e' & f' & -> & _)]; reflexivity. }
    rewrite wval_zero in *. apply FIN.
    + destruct TM as [[-> X]|(n' & e' & f' & -> & Hf' & He' & L & Er)].
      * rewrite wval_zero. change (Qabs 0) with 0%Q. lra.
      * rewrite wval_reg, uval_qabs by assumption. lra.
    + assert (E : (wval F w - (0 + wval F w) == 0)%Q) by ring. rewrite E. change (Qabs 0) with 0%Q.
      pose proof (Qabs_nonneg (wval F w)). nra.
    + destruct TM as [[-> X]|(n' & e' & f' & -> & Hf' & He' & L & Er)]; [left; reflexivity|].
      right. exists n', e', f'. split; [reflexivity|]. split; [assumption|lia].
  - destruct TM as [[-> X]|(n' & e' & f' & -> & Hf' & He' & L & Er)].
    + right. exists (U Regular n e f). split; [reflexivity|]. apply FIN.
      * lra.
      * rewrite wval_zero. assert (E : (wval F (U Regular n e f) - (wval F (U Regular n e f) + 0) == 0)%Q) by ring. rewrite E.
        change (Qabs 0) with 0%Q. pose proof (Qabs_nonneg (wval F (U Regular n e f))). nra.
      * right. eauto 8.
    + assert (EU : e < m2 + 33).
      { apply pow2_lt_inv. pose proof (proj1 (uabs_scale F e f ltac:(lia) Hf)) as S1. rewrite wval_reg, uval_qabs in WB by assumption.
        assert (KB : (inject_Z k < pow2 31)%Q) by (rewrite pow2_Z by lia; apply inj_lt; assumption).
        replace (m2 + 33) with (31 + (m2 + 2)) by lia. rewrite pow2_plus.
        pose proof (pow2_pos (m2 + 2)) as PM. set (M := pow2 (m2 + 2)) in *. set (t := pow2 31) in *. set (kk := inject_Z k) in *.
        clearbody M t kk. assert (kk * M < t * M)%Q by (apply Qmult_lt_r; assumption). lra. }
      destruct (u_add_err F (c_E c) n n' e e' f f' (vc_F _ V) (c_E_width c V) Hf Hf') as [U|(s' & U & SH & A1 & A2)]; try lia; [left; exact U|].
      right. exists s'. split; [exact U|].
      rewrite wval_reg, uval_qabs in WB by assumption. apply FIN.
      * lra.
      * rewrite !wval_reg, !uval_qabs by assumption. exact A2.
      * destruct SH as [->|(n1 & e1 & f1 & -> & Hf1 & He1)]; [left; reflexivity|]. right. exists n1, e1, f1.
        split; [reflexivity|]. split; [assumption|lia].
Qed.

Lemma inv_comp k S S' T T' w : (S == S')%Q -> (T == T')%Q -> inv k S T w -> inv k S' T' w.
Proof using.
  intros ES ET (A & B & C & D & E & G). unfold inv. rewrite <- ES, <- ET. repeat split; assumption.
Qed.

Lemma dot_acc_inv l : forall k S T s, inv k S T s -> dot_real c l -> k + Z.of_nat (length l) <= 2 ^ 31 ->
  dot_acc c s l = UB ShiftCount \/
  exists w, dot_acc c s l = Ok w /\ inv (k + Z.of_nat (length l)) (S + dot_exact c l) (T + dot_magnitude c l) w.
Proof using V FF H8.
  induction l as [|[x y] l IH]; intros k S T s I R L.
  - right. exists s. split; [reflexivity|]. cbn [length]. rewrite Z.add_0_r. revert I. apply inv_comp; cbn; ring.
  - inversion R as [|? ? [Rx Ry] Rl]; subst. cbn [fst snd] in Rx, Ry. cbn [length] in L. rewrite Nat2Z.inj_succ in L.
    destruct (uprod_term x y Rx Ry) as (w & P & TM). unfold uprod in P. cbn [fst snd] in P. cbn [dot_acc].
    destruct (unpack c x) as [ux|]; cbn [bind] in *; [|discriminate].
    destruct (unpack c y) as [uy|]; cbn [bind] in *; [|discriminate]. rewrite P. cbn [bind].
    destruct (inv_step k S T s _ w I TM ltac:(lia)) as [U|(s' & U & I')]; rewrite U; cbn [bind]; [left; reflexivity|].
    destruct (IH (k + 1) _ _ s' I' Rl ltac:(lia)) as [D|(w' & D & ID)]; [left; exact D|].
    right. exists w'. split; [exact D|]. cbn [length]. rewrite Nat2Z.inj_succ.
    replace (k + Z.succ (Z.of_nat (length l))) with (k + 1 + Z.of_nat (length l)) by lia.
    revert ID. apply inv_comp; unfold dot_exact, dot_magnitude; cbn [fold_right fst snd]; ring.
Qed.

Lemma dot_error l : exp_ok c -> dot_real c l -> Z.of_nat (length l) < 2 ^ 31 ->
  p_dot c l = UB ShiftCount \/
  exists r x, p_dot c l = Ok r /\ rounds_tz c x r /\
    (Qabs (x - dot_exact c l) <= ((1 + pow2 (4 - cF c)) ^ Z.of_nat (length l) - 1) * dot_magnitude c l)%Q.
Proof using V FF H8.
  intros X R L. destruct l as [|[x y] l].
  - right. exists 0, 0%Q. split; [reflexivity|]. split; [left; split; reflexivity|]. cbn. discriminate.
  - inversion R as [|? ? [Rx Ry] Rl]; subst. cbn [fst snd] in Rx, Ry. cbn [length] in *. rewrite Nat2Z.inj_succ in *.
    destruct (uprod_term x y Rx Ry) as (w & P & TM). unfold uprod in P. cbn [fst snd] in P. cbn [p_dot].
    destruct (unpack c x) as [ux|]; cbn [bind] in *; [|discriminate].
    destruct (unpack c y) as [uy|]; cbn [bind] in *; [|discriminate]. rewrite P. cbn [bind].
    destruct (dot_acc_inv l 1 _ _ w (inv_first _ _ TM) Rl ltac:(lia)) as [D|(s & D & I)]; rewrite D; cbn [bind]; [left; reflexivity|].
    replace (1 + Z.of_nat (length l)) with (Z.succ (Z.of_nat (length l))) in I by lia.
    destruct I as (_ & _ & _ & _ & ER & SH).
    assert (FIN : forall r z, pack_posit c s = Ok r -> rounds_tz c z r -> (z == wval F s)%Q ->
      exists r' x', pack_posit c s = Ok r' /\ rounds_tz c x' r' /\
       (Qabs (x' - dot_exact c ((x, y) :: l)) <= ((1 + pow2 (4 - F)) ^ Z.succ (Z.of_nat (length l)) - 1) * dot_magnitude c ((x, y) :: l))%Q).
    { intros r z A B E. exists r, z. split; [exact A|]. split; [exact B|]. rewrite E. exact ER. }
    destruct SH as [->|(n & e & f & -> & Hf & He)].
    + right. apply (FIN 0 0%Q); [apply pack_zero|left; split; reflexivity|reflexivity].
    + pose proof (is_width_pos _ (vc_F _ V)) as BF.
      destruct (pack_posit c (U Regular n e f)) as [r|k] eqn:PK.
      * right. apply (FIN r (uvalue F n e f)); [reflexivity|apply pack_value; assumption|apply uvalue_uval; lia].
      * left. destruct (pack_total c n e f V X Hf) as [_ PN].
        destruct (Z_lt_le_dec 0 1) as [_|]; [|lia].
        assert (DEC : pack_room c e \/ ~ pack_room c e) by (unfold pack_room; cbv zeta; lia).
        destruct DEC as [Y|Nn]; [|rewrite <- PK; apply PN; exact Nn].
        destruct (pack_total c n e f V X Hf) as [PT _]. destruct (PT Y) as (r & E & _). rewrite PK in E. discriminate.
Qed.
End DotError.
