(** Exact conditions under which packing is defined. *)
From Coq Require Import ZArith QArith Qabs Lia Lqa Bool List.
From Verif Require Import Res CInt Bits Traits Unpacked Cfg Posit Spec QPow Core SpecLemmas Arith
  DecodeProof EncodeProof UOps UAdd Ops OpsAdd OpsUnary OpsUnary2 Specials.
Open Scope Z_scope.

Lemma clamp_min_max v lo hi : lo <= hi -> clamp v lo hi = Z.min hi (Z.max lo v).
Proof.
  intros. unfold clamp. rewrite Z.gtb_ltb.
  destruct (Z.ltb_spec v lo), (Z.ltb_spec hi v); lia.
Qed.

Lemma eclamp_eq c e : valid_cfg c ->
  eclamp c e = Z.min (maxk c * 2 ^ ces c) (Z.max (- (cN c - 2) * 2 ^ ces c) e).
Proof.
  intros V. vcb V. destruct (eclamp_range c e V) as [[A B] C]. unfold eclamp. rewrite clamp_min_max.
  - f_equal. f_equal. unfold emax. ring.
  - lia.
Qed.

Lemma packable_room c e : valid_cfg c -> packable c (eclamp c e / 2 ^ ces c) = true <-> pack_room c e.
Proof.
  intros V. vcb V. unfold pack_room. rewrite <- eclamp_eq by assumption.
  unfold packable. fold (sft (eclamp c e / 2 ^ ces c)). set (s := sft _). unfold pw.
  rewrite andb_true_iff, !Z.ltb_lt. lia.
Qed.

Lemma pack_room_defined c n e f : valid_cfg c -> exp_ok c -> 0 <= f < 2 ^ cF c ->
  (exists r, pack_posit c (U Regular n e f) = Ok r) <-> pack_room c e.
Proof.
  intros V X Hf. rewrite <- packable_room by assumption. rewrite pack_posit_spec by assumption.
  destruct (packable c (eclamp c e / 2 ^ ces c)); split; intros H; eauto; [destruct H; discriminate|discriminate].
Qed.

Lemma pack_no_room c n e f : valid_cfg c -> exp_ok c -> 0 <= f < 2 ^ cF c -> ~ pack_room c e ->
  pack_posit c (U Regular n e f) = UB ShiftCount.
Proof.
  intros V X Hf N. rewrite <- packable_room in N by assumption. rewrite pack_posit_spec by assumption.
  destruct (packable c (eclamp c e / 2 ^ ces c)); [contradiction N|]; reflexivity.
Qed.

Lemma roomy_pack_room c e : valid_cfg c -> roomy c -> pack_room c e.
Proof. intros V R. apply packable_room; [assumption|]. apply roomy_packable; try assumption. apply eclamp_inreg, V. Qed.

Lemma sgq_abs n x : (0 <= x)%Q -> (Qabs (sgq n x) == x)%Q.
Proof. intros P. destruct n; cbn [sgq]; [rewrite Qabs_opp|]; apply Qabs_pos; assumption. Qed.

Lemma cell_scale F n e f j x : 0 <= F -> j <= F -> cell F e f j x -> scale (sgq n x) e.
Proof.
  intros HF Hj [Hf [J0 [M [A B]]]]. pose proof (uabs_scale F e f HF Hf) as [S1 S2].
  assert (P : (0 <= x)%Q) by (pose proof (uabs_pos F e f HF ltac:(lia)); lra).
  unfold scale. rewrite sgq_abs by assumption. split; [lra|].
  eapply Qlt_le_trans; [exact B|]. pow_pos 2 F. pow_pos 2 j.
  assert (f + 2 ^ j <= 2 ^ F).
  { assert (E : 2 ^ F = 2 ^ (F - j) * 2 ^ j) by (rewrite <- Z.pow_add_r by lia; f_equal; lia).
    pose proof (Z.div_mod f (2 ^ j) ltac:(lia)) as D. rewrite M in D.
    assert (f / 2 ^ j < 2 ^ (F - j)) by nia. nia. }
  replace (pow2 (e + 1)) with (pow2 (e + 1)) by reflexivity.
  assert (E : (pow2 (e + 1) == dy (2 ^ (F + 1)) (e - F))%Q).
  { replace (2 ^ (F + 1)) with (1 * 2 ^ (F + 1)) by lia. rewrite dy_pow by lia.
    replace (e - F + (F + 1)) with (e + 1) by lia. unfold dy. ring. }
  rewrite E. apply dy_le. rewrite pow2_S by lia. lia.
Qed.

Lemma room_comp c x y : (x == y)%Q -> room c x -> room c y.
Proof.
  intros E [H|[e [S R]]]; [left; rewrite <- E; assumption|right]. exists e. split; [|assumption].
  eapply scale_comp; eassumption.
Qed.
Lemma scale_nz x e : scale x e -> ~ (x == 0)%Q.
Proof.
  intros [A _] E. rewrite E in A. pose proof (pow2_pos e) as P. cbn in A. change (Qabs 0) with 0%Q in A. lra.
Qed.
Lemma scale_opp x e : scale x e -> scale (- x) e.
Proof. unfold scale. rewrite Qabs_opp. auto. Qed.
Lemma room_opp c x : room c x -> room c (- x).
Proof.
  intros [H|[e [S R]]]; [left; rewrite H; reflexivity|right]. exists e. split; [apply scale_opp|]; assumption.
Qed.
Lemma room_iff c x e : scale x e -> room c x <-> pack_room c e.
Proof.
  intros S. split.
  - intros [H|[e' [S' R]]]; [apply scale_nz in S; contradiction|].
    rewrite (scale_unique x e e') by assumption. assumption.
  - intros R. right. eauto.
Qed.
Lemma pow_bracket x : (0 < x)%Q -> exists e, (pow2 e <= x)%Q /\ (x < pow2 (e + 1))%Q.
Proof.
  intros P. destruct x as [p q]. assert (0 < p) by (unfold Qlt in P; cbn in P; lia).
  set (a := Z.log2 p). set (b := Z.log2 (Zpos q)).
  pose proof (Z.log2_spec p ltac:(lia)) as [A1 A2]. pose proof (Z.log2_spec (Zpos q) ltac:(lia)) as [B1 B2].
  fold a in A1, A2. fold b in B1, B2.
  pose proof (Z.log2_nonneg p) as A0. pose proof (Z.log2_nonneg (Zpos q)) as B0. fold a in A0. fold b in B0.
  assert (V : (p # q == inject_Z p * / inject_Z (Zpos q))%Q) by (rewrite Qmake_Qdiv; reflexivity).
  assert (QP : (0 < inject_Z (Zpos q))%Q) by reflexivity.
  assert (LE : forall m e, (dy m e <= p # q)%Q <-> (dy m e * inject_Z (Zpos q) <= inject_Z p)%Q).
  { intros m e. rewrite V. split; intros H0.
    - apply (Qmult_le_r _ _ _ QP) in H0. rewrite <- Qmult_assoc in H0.
      rewrite (Qmult_comm (/ _)) in H0. rewrite Qmult_inv_r in H0 by lra. lra.
    - apply (Qmult_le_r _ _ _ QP). rewrite <- Qmult_assoc, (Qmult_comm (/ _)), Qmult_inv_r by lra. lra. }
  assert (T : forall z, (inject_Z z == dy z 0)%Q) by (intros; unfold dy; change (pow2 0) with 1%Q; ring).
  assert (DE : (dy (2 ^ a) (- b - 1) <= p # q)%Q).
  { apply LE. rewrite (T p), (T (Zpos q)), dy_mul. 
    apply Qle_trans with (dy (2 ^ a * 2 ^ (b + 1)) (- b - 1 + 0)); [apply dy_le; rewrite <- Z.add_1_r in B2; pow_pos 2 a; nia|].
    rewrite dy_pow by lia. replace (- b - 1 + 0 + (b + 1)) with 0 by lia. apply dy_le. lia. }
  assert (PW : forall n e, 0 <= n -> (dy (2 ^ n) e == pow2 (e + n))%Q).
  { intros n e Hn. replace (2 ^ n) with (1 * 2 ^ n) by lia. rewrite dy_pow by lia. unfold dy. ring. }
  assert (UP : (p # q < dy (2 ^ (a + 1)) (- b))%Q).
  { apply Qnot_le_lt. intros L. apply LE in L. rewrite (T p), (T (Zpos q)), dy_mul in L.
    assert (L2 : (dy (2 ^ (a + 1) * 2 ^ b) (- b + 0) <= dy p 0)%Q).
    { eapply Qle_trans; [|exact L]. apply dy_le. pow_pos 2 (a + 1). nia. }
    rewrite dy_pow in L2 by lia. replace (- b + 0 + b) with 0 in L2 by lia. apply dy_le_inv in L2.
    rewrite <- Z.add_1_r in A2. lia. }
  rewrite PW in DE by lia. rewrite PW in UP by lia.
  destruct (Qlt_le_dec (p # q) (pow2 (a - b))) as [L|L].
  - exists (a - b - 1). split; [replace (a - b - 1) with (- b - 1 + a) by lia; exact DE|].
    replace (a - b - 1 + 1) with (a - b) by lia. exact L.
  - exists (a - b). split; [exact L|]. replace (a - b + 1) with (- b + (a + 1)) by lia. exact UP.
Qed.
Lemma scale_exists x : ~ (x == 0)%Q -> exists e, scale x e.
Proof.
  intros N. apply pow_bracket. destruct (Qlt_le_dec 0 x) as [P|P].
  - rewrite Qabs_pos by lra. assumption.
  - rewrite Qabs_neg by assumption. lra.
Qed.

Lemma roomy_room c x : valid_cfg c -> roomy c -> room c x.
Proof.
  intros V R. destruct (Qeq_dec x 0) as [E|E]; [left; assumption|right].
  destruct (scale_exists x E) as [e S]. exists e. split; [assumption|]. apply roomy_pack_room; assumption.
Qed.
Lemma roomy_room_up c x : valid_cfg c -> roomy c -> room_up c x.
Proof.
  intros V R. destruct (Qeq_dec x 0) as [E|E]; [left; assumption|right].
  destruct (scale_exists x E) as [e S]. exists e. split; [assumption|].
  split; apply roomy_pack_room; assumption.
Qed.

(** ** Exact definedness of *, / and same-sign + *)
Lemma room_dec c e : {pack_room c e} + {~ pack_room c e}.
Proof. unfold pack_room. apply Z_lt_dec. Qed.

Lemma cell_outcome c o n e f j x y : valid_cfg c -> exp_ok c -> 0 <= cF c -> j <= cF c ->
  o = pack_posit c (U Regular n e f) -> cell (cF c) e f j x -> (y == sgq n x)%Q ->
  (room c y -> exists r, o = Ok r) /\ (~ room c y -> o = UB ShiftCount).
Proof.
  intros V X F0 FJ -> C E. assert (S : scale y e).
  { eapply scale_comp; [symmetry; exact E|]. eapply cell_scale; eassumption. }
  rewrite (room_iff c y e S). split; intros R.
  - apply pack_room_defined; try assumption. apply C.
  - apply pack_no_room; try assumption. apply C.
Qed.

Lemma p_mul_room c a b : valid_cfg c -> exp_ok c -> mul_fits c -> real c a -> real c b ->
  (room c (value c a * value c b) -> exists r, p_mul c a b = Ok r) /\
  (~ room c (value c a * value c b) -> p_mul c a b = UB ShiftCount).
Proof.
  intros V X MF Ra Rb. vcb V. destruct (p_mul_core c a b V MF Ra Rb) as [[E Z]|[n [e [f [j [x [E [J [C Vx]]]]]]]]].
  - split; [eauto|]. intros N. exfalso. apply N. left. assumption.
  - apply (cell_outcome c _ n e f j x); try assumption; lia.
Qed.
Lemma p_div_room c a b : valid_cfg c -> exp_ok c -> mul_fits c -> real c a -> real c b -> b <> 0 ->
  (room c (value c a / value c b) -> exists r, p_div c a b = Ok r) /\
  (~ room c (value c a / value c b) -> p_div c a b = UB ShiftCount).
Proof.
  intros V X MF Ra Rb Nb. vcb V.
  destruct (p_div_core c a b V MF Ra Rb Nb) as [[E Z]|[n [e [f [x [E [C Vx]]]]]]].
  - split; [eauto|]. intros N. exfalso. apply N. left. assumption.
  - apply (cell_outcome c _ n e f 0 x); try assumption; lia.
Qed.

