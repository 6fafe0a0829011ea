(** Inverses of inverses of powers of two. *)
From Coq Require Import ZArith QArith Qabs Bool Lia Lqa Zpow_facts Znumtheory.
From Verif Require Import Res CInt Bits Traits Cfg Spec Unpacked Posit QPow Core SpecLemmas Arith DecodeProof EncodeProof UOps UAdd Ops
  OpsUnary OpsUnary2 OpsAdd Acc2 Room Laws Configs Final1 Final2 Final4 Tight1.
Open Scope Z_scope.

(** Integers whose product is a power of two are powers of two. *)
Lemma dy_inverse H f m a b : 0 <= H -> 0 <= f < 2 ^ H -> 0 < m -> (dy (2 ^ H + f) a * dy m b == 1)%Q -> f = 0.
Proof.
  intros HH Hf Hm E. unfold dy in E. assert (PH : 0 < 2 ^ H) by (apply Z.pow_pos_nonneg; lia).
  assert (E1 : (inject_Z ((2 ^ H + f) * m) == pow2 (- (a + b)))%Q).
  { assert (P : (pow2 (a + b) * pow2 (- (a + b)) == 1)%Q) by (rewrite <- pow2_plus; replace (a + b + - (a + b)) with 0 by lia; reflexivity).
    rewrite pow2_plus in P at 1. rewrite inject_Z_mult.
    assert (K : (inject_Z (2 ^ H + f) * inject_Z m * (pow2 a * pow2 b * pow2 (- (a + b))) == pow2 (- (a + b)))%Q).
    { setoid_replace (inject_Z (2 ^ H + f) * inject_Z m * (pow2 a * pow2 b * pow2 (- (a + b))))%Q
        with ((inject_Z (2 ^ H + f) * pow2 a * (inject_Z m * pow2 b)) * pow2 (- (a + b)))%Q by ring. rewrite E. ring. }
    rewrite P in K. rewrite <- K. ring. }
  assert (M1 : 1 <= (2 ^ H + f) * m) by nia.
  destruct (Z_le_gt_dec 0 (- (a + b))) as [N|N].
  - rewrite pow2_Z in E1 by assumption.
    assert (E2 : (2 ^ H + f) * m = 2 ^ (- (a + b))) by (apply inject_Z_injective; exact E1).
    assert (D : (2 ^ H + f | 2 ^ (- (a + b)))) by (exists m; lia).
    assert (X0 : 0 <= 2 ^ H + f) by lia.
    destruct (Zdivide_power_2 _ 2 _ N X0 prime_2 D) as (k & K).
    assert (0 <= k) by (destruct (Z_lt_le_dec k 0); [rewrite (Z.pow_neg_r 2 k) in K by lia; lia|assumption]).
    assert (k <= H). { destruct (Z_lt_le_dec H k); [|assumption]. exfalso.
      pose proof (Z.pow_le_mono_r 2 (H + 1) k ltac:(lia) ltac:(lia)) as L. rewrite Z.pow_add_r in L by lia. lia. }
    pose proof (Z.pow_le_mono_r 2 k H ltac:(lia) ltac:(lia)). lia.
  - exfalso. assert (L : (pow2 (- (a + b)) < pow2 0)%Q) by (apply pow2_lt; lia). change (pow2 0) with 1%Q in L.
    assert (G : (1 <= inject_Z ((2 ^ H + f) * m))%Q) by (change 1%Q with (inject_Z 1); rewrite <- Zle_Qle; assumption). lra.
Qed.

Lemma inv_to c x y : valid_cfg c -> exp_ok c -> real c x -> real c y -> (value c x * value c y == 1)%Q ->
  (forall r, p_inv c x = Ok r -> r = y) /\ (room c (value c y) -> p_inv c x = Ok y) /\ (~ room c (value c y) -> p_inv c x = UB ShiftCount).
Proof.
  intros V X Rx Ry E. assert (V' := V). vcb V.
  assert (NZ : x <> 0).
  { intros ->. assert (Z0 : (value c 0 == 0)%Q) by (unfold value; reflexivity). rewrite Z0 in E. lra. }
  assert (NE : ~ (csp c = WithNanInf /\ (x = 1 \/ x = -1))).
  { intros [S O]. pose proof (maxreal_bounds c BN Bes) as MB. pose proof (maxpos_minpos c V' X S) as M.
    assert (P1 : (0 < value c 1)%Q) by (apply (value_pos c BN Bes); pose proof (maxreal_bounds c BN Bes); pow_pos 2 (cN c - 1); lia).
    assert (U : (value c y <= value c (maxreal c))%Q) by (apply real_value_le; try assumption; unfold real in *; lia).
    assert (W : (- value c (maxreal c) <= value c y)%Q) by (rewrite <- vopp; apply real_value_le; try assumption; unfold real in *; lia).
    destruct O as [->| ->]; [nra|]. change (-1) with (- (1)) in E. rewrite vopp in E. nra. }
  assert (NY : y <> 0).
  { intros ->. assert (Z0 : (value c 0 == 0)%Q) by (unfold value; reflexivity). rewrite Z0 in E. lra. }
  destruct (unpack_low_val c x V' Rx NZ) as (k & e & f & U1 & _ & _ & _ & Hf & _ & _ & VX & _).
  destruct (unpack_low_val c y V' Ry NY) as (k2 & e2 & f2 & _ & _ & IR2 & He2 & Hf2 & _ & _ & VY & LAST).
  assert (HH : 0 <= cH c) by lia.
  rewrite lval_ef in VX, VY by assumption.
  assert (f = 0).
  { apply (dy_inverse (cH c) f (2 ^ cH c + f2) (k * 2 ^ ces c + e - cH c) (k2 * 2 ^ ces c + e2 - cH c) HH Hf ltac:(lia)).
    assert (0 < dy (2 ^ cH c + f) (k * 2 ^ ces c + e - cH c))%Q by (apply dy_pos; lia).
    assert (0 < dy (2 ^ cH c + f2) (k2 * 2 ^ ces c + e2 - cH c))%Q by (apply dy_pos; lia).
    rewrite VX, VY in E. destruct (x <? 0), (y <? 0); cbn [sgq] in E; nra. }
  subst f.
  destruct (p_inv_pow2 c x k e V' Rx NZ U1) as (k' & e' & P & IR & He & EE & VV & CAP). specialize (CAP NE).
  assert (A : forall r, p_inv c x = Ok r -> r = y).
  2:{ split; [exact A|].
    assert (PK : packable c k' = true <-> room c (value c y)).
    { set (g := k * 2 ^ ces c + e) in *.
      assert (PP : (pow2 g * pow2 (- g) == 1)%Q) by (rewrite <- pow2_plus; replace (g + - g) with 0 by lia; reflexivity).
      assert (YA : (Qabs (value c y) == pow2 (- g))%Q).
      { rewrite VV in E. pose proof (pow2_pos g). pose proof (pow2_pos (- g)).
        assert (YS : (value c y == sgq (x <? 0) (pow2 (- g)))%Q).
        { apply (Qmult_inj_l _ _ (sgq (x <? 0) (pow2 g))); [destruct (x <? 0); cbn [sgq]; lra|]. rewrite E. destruct (x <? 0); cbn [sgq]; lra. }
        rewrite YS. apply sgq_abs. lra. }
      assert (S1 : scale (value c y) (- g)).
      { unfold scale. rewrite YA. split; [lra|]. apply pow2_lt. lia. }
      assert (S2 : scale (value c y) (k2 * 2 ^ ces c + e2)).
      { eapply scale_comp; [symmetry; exact VY|]. rewrite <- lval_ef by assumption. 
        unfold scale. rewrite lval_ef by assumption. rewrite sgq_abs by (apply Qlt_le_weak, dy_pos; lia).
        set (w := k2 * 2 ^ ces c + e2). split.
        - rewrite <- (dy_pow2 (cH c) w HH). apply dy_le. lia.
        - replace (w + 1) with (w - cH c + (cH c + 1)) by lia. rewrite pow2_plus, (pow2_Z (cH c + 1)) by lia.
          unfold dy. rewrite Qmult_comm. apply Qmult_lt_l; [apply pow2_pos|]. rewrite <- Zlt_Qlt. rewrite Z.pow_add_r by lia. lia. }
      assert (KK : - g = k2 * 2 ^ ces c + e2) by (exact (scale_unique _ _ _ S1 S2)).
      assert (K2 : k' = k2) by nia.
      assert (KM : k' <= maxk c).
      { unfold maxk. unfold inreg in IR2. destruct (spec_eqb (csp c) WithNanInf) eqn:SE; [|lia].
        destruct (Z.eq_dec k2 (cN c - 2)) as [L|L]; [|lia]. destruct (LAST L) as (_ & _ & AY).
        unfold real, maxreal in Ry. destruct (csp c); try discriminate. lia. }
      rewrite (room_iff c _ _ S1), <- packable_room, eclamp_eq by assumption.
      replace (Z.min (maxk c * 2 ^ ces c) (Z.max (- (cN c - 2) * 2 ^ ces c) (- g)) / 2 ^ ces c) with k'; [reflexivity|].
      unfold inreg in IR. assert (PE : 0 < 2 ^ ces c) by (apply Z.pow_pos_nonneg; lia).
      rewrite Z.max_r by nia. destruct (Z.eq_dec k' (maxk c)) as [Q|Q].
      - rewrite Z.min_l by nia. rewrite Z.div_mul by lia. assumption.
      - rewrite Z.min_r by nia. rewrite <- EE. symmetry. rewrite Z.div_add_l by lia. rewrite Z.div_small by lia. lia. }
    rewrite P, pack_low_spec in * by (assumption || lia).
    destruct (packable c k'); split; intros R.
    - f_equal. apply A. reflexivity.
    - exfalso. apply R, PK. reflexivity.
    - apply PK in R. discriminate.
    - reflexivity. }
  intros r Pr. rewrite P in Pr.
  pose proof (pack_low_rounds c (x <? 0) k' e' 0 r V' IR He ltac:(lia) CAP Pr) as T.
  apply (rounds_tz_unique c BN Bes (value c y)); [|apply (rounds_tz_exact c BN Bes); assumption].
  eapply (rounds_tz_comp c BN Bes); [|exact T].
  rewrite Z.add_0_r, EE. rewrite (sgq_comp _ _ _ (lval_pow2 (cH c) (- (k * 2 ^ ces c + e)) HH)).
  set (g := k * 2 ^ ces c + e) in *.
  assert (PP : (pow2 g * pow2 (- g) == 1)%Q) by (rewrite <- pow2_plus; replace (g + - g) with 0 by lia; reflexivity).
  assert (G : (0 < pow2 g)%Q) by apply pow2_pos. rewrite VV in E.
  apply (Qmult_inj_l _ _ (sgq (x <? 0) (pow2 g))); [destruct (x <? 0); cbn [sgq]; lra|].
  rewrite E. destruct (x <? 0); cbn [sgq]; lra.
Qed.
Lemma inv_twice c x y : valid_cfg c -> exp_ok c -> real c x -> real c y -> (value c x * value c y == 1)%Q ->
  room c (value c x) -> room c (value c y) -> p_inv c x = Ok y /\ p_inv c y = Ok x.
Proof. intros V X Rx Ry E R1 R2. split; apply inv_to; try assumption. lra. Qed.
Lemma inv_no_room c x y : valid_cfg c -> exp_ok c -> real c x -> real c y -> (value c x * value c y == 1)%Q ->
  ~ room c (value c y) -> p_inv c x = UB ShiftCount.
Proof. intros V X Rx Ry E N. exact (proj2 (proj2 (inv_to c x y V X Rx Ry E)) N). Qed.
Lemma inv_exact_any c x y r : valid_cfg c -> exp_ok c -> real c x -> real c y -> (value c x * value c y == 1)%Q -> p_inv c x = Ok r -> r = y.
Proof. intros V X Rx Ry E. exact (proj1 (inv_to c x y V X Rx Ry E) r). Qed.

Lemma u_inv_power F E n e : is_width F -> is_width E -> - 2 ^ (E - 1) < e < 2 ^ (E - 1) ->
  u_inv F E (U Regular n e 0) = Ok (U Regular n (- e) 0).
Proof.
  intros WF WE B. assert (0 < F) by (unfold is_width in WF; lia). assert (0 < E) by (unfold is_width in WE; lia).
  assert (0 < 2 ^ F) by (apply Z.pow_pos_nonneg; lia).
  unfold u_inv. cbn [utyp ufrac uexp uneg Z.eqb]. unfold cneg. rewrite pE_arith by (try assumption; lia). cbn [bind].
  unfold u_mk. rewrite cast_s_small, cast_u_small by lia. reflexivity.
Qed.
Lemma u_inv_lowest E F n : is_width E -> 32 <= E -> u_inv F E (U Regular n (- 2 ^ (E - 1)) 0) = UB SignedOverflow.
Proof.
  intros WE G. unfold u_inv. cbn [utyp ufrac uexp uneg Z.eqb].
  assert (D : E = 32 \/ E = 64) by (unfold is_width in WE; lia).
  destruct D as [-> | ->]; vm_compute; reflexivity.
Qed.
Lemma u_inv_twice F E n e : is_width F -> is_width E -> - 2 ^ (E - 1) < e < 2 ^ (E - 1) ->
  u_inv F E (U Regular n e 0) = Ok (U Regular n (- e) 0) /\ u_inv F E (U Regular n (- e) 0) = Ok (U Regular n e 0) /\
  (uvalue F n e 0 * uvalue F n (- e) 0 == 1)%Q.
Proof.
  intros WF WE B. assert (0 < F) by (unfold is_width in WF; lia). split; [apply u_inv_power; assumption|]. split.
  - rewrite u_inv_power by (assumption || lia). rewrite Z.opp_involutive. reflexivity.
  - assert (P : (pow2 e * pow2 (- e) == 1)%Q) by (rewrite <- pow2_plus; replace (e + - e) with 0 by lia; reflexivity).
    assert (Z0 : (inject_Z 0 / pow2 F == 0)%Q) by (change (inject_Z 0) with 0%Q; unfold Qdiv; ring).
    unfold uvalue. rewrite Z0. destruct n; lra.
Qed.
Lemma room_cases : (forall q, room p16 q) /\ valid_cfg p32 /\ exp_ok p32 /\ real p32 2147483647 /\ real p32 1 /\
  (value p32 2147483647 * value p32 1 == 1)%Q /\ ~ room p32 (value p32 1) /\ p_inv p32 2147483647 = UB ShiftCount.
Proof.
  assert (V : valid_cfg p32) by cfg_tac.
  split; [intros q; apply roomy_room; [cfg_tac|vm_compute; reflexivity]|]. split; [exact V|].
  split; [intros _; vm_compute; reflexivity|]. split; [vm_compute; split; discriminate|]. split; [vm_compute; split; discriminate|].
  split; [vm_compute; reflexivity|]. split; [|vm_compute; reflexivity].
  intros R. apply (room_iff p32 _ (- (30 * 2 ^ ces p32))) in R; [vm_compute in R; discriminate|].
  split; vm_compute; [discriminate|reflexivity].
Qed.
