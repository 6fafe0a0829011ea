(** pseudosigmoid against the logistic function. *)
From Coq Require Import ZArith QArith Qabs Qreals Reals Lia Lqa Lra Bool List.
From Verif Require Import Res CInt Bits Cfg Spec Posit Unpacked Traits QPow Core SpecLemmas Arith DecodeProof EncodeProof UOps UAdd Ops OpsUnary OpsUnary2 Room Laws Configs Final1 Final2 Final4 Misc1 Misc5 Logistic.
Open Scope Z_scope.

(** The distance of the scaled pattern to 1/2 is about 1/(4x). *)
Lemma pattern_inverse c v : valid_cfg c -> ces c = 0 -> 2 ^ (cN c - 2) <= v < 2 ^ (cN c - 1) ->
  (1 # 4 <= value c v * dy (2 ^ (cN c - 1) - v) (- cN c) <= 9 # 32)%Q.
Proof.
  intros V Z0 B. vcb V. pow_pos 2 (cN c - 2). rewrite value_pos_lval by (try assumption; lia).
  destruct (reg_spec (cN c) BN v ltac:(lia)) as [R RB].
  assert (K0 : 0 <= reg (cN c) v).
  { destruct (Z_lt_le_dec (reg (cN c) v) 0) as [L|]; [|assumption]. pose proof (base_lt (cN c) BN _ 0 R ltac:(unfold inreg; lia) L) as Q. rewrite (base_0 (cN c)) in Q by assumption. lia. }
  unfold gran. rewrite Z0, Z.sub_0_r. destruct (Z.eq_dec (reg (cN c) v) (cN c - 2)) as [E|NE].
  - assert (EV : v = 2 ^ (cN c - 1) - 1).
    { rewrite E in RB. rewrite (base_last (cN c)) in RB by assumption. unfold cnt in RB. rewrite Z.eqb_refl in RB. lia. }
    rewrite EV, (pdec_last (cN c)) by assumption. rewrite lval_pow2 by lia. replace (2 ^ (cN c - 1) - (2 ^ (cN c - 1) - 1)) with 1 by lia.
    unfold dy. change (inject_Z 1) with 1%Q. rewrite Qmult_1_l, <- pow2_plus. replace (cN c - 2 + - cN c) with (- 2) by lia. split; vm_compute; discriminate.
  - unfold pdec. set (k := reg (cN c) v) in *. assert (K1 : k <= cN c - 3) by (unfold inreg in R; lia).
    set (M := 2 ^ (cN c - 3 - k)). assert (M0 : 0 < M) by (unfold M; apply Z.pow_pos_nonneg; lia).
    assert (BK : base (cN c) k = 2 ^ (cN c - 1) - 2 * M).
    { unfold base, M. destruct (Z.leb_spec 0 k); [|lia]. replace (cN c - 2 - k) with (cN c - 3 - k + 1) by lia. rewrite pow2_S by lia. reflexivity. }
    assert (CK : cnt (cN c) k = M).
    { unfold cnt, sft, M. destruct (Z.eqb_spec k (cN c - 2)); [lia|]. destruct (Z.leb_spec 0 k); [reflexivity|lia]. }
    rewrite CK in RB. set (r := v - base (cN c) k) in *. assert (r0 : 0 <= r < M) by lia.
    assert (E3 : 2 ^ (cN c - 3) = M * 2 ^ k) by (unfold M; rewrite <- Z.pow_add_r by lia; f_equal; lia).
    unfold sft. destruct (Z.leb_spec 0 k); [|lia]. pow_pos 2 k.
    rewrite lval_ef by (rewrite E3; nia). rewrite E3. rewrite <- Z.mul_add_distr_r, dy_pow by lia.
    replace (2 ^ (cN c - 1) - v) with (2 * M - r) by lia. rewrite dy_mul.
    set (e := k - (cN c - 3) + k + - cN c).
    assert (M2 : M * M = 2 ^ (2 * (cN c - 3 - k))) by (unfold M; rewrite <- Z.pow_add_r by lia; f_equal; lia).
    assert (Q1 : (1 # 4 == dy (M * M * 2) e)%Q).
    { replace (M * M * 2) with (1 * 2 ^ (2 * (cN c - 3 - k) + 1)) by (rewrite M2, pow2_S by lia; lia). rewrite dy_pow by lia. replace (e + (2 * (cN c - 3 - k) + 1)) with (-2) by (unfold e; lia). reflexivity. }
    assert (Q2 : (9 # 32 == dy (9 * (M * M)) (e - 2))%Q).
    { rewrite M2, dy_pow by lia. replace (e - 2 + 2 * (cN c - 3 - k)) with (-5) by (unfold e; lia). reflexivity. }
    rewrite Q1, Q2. split; [apply dy_le; nia|]. replace e with (e - 2 + 2) at 1 by lia. rewrite <- dy_pow by lia. apply dy_le. change (2 ^ 2) with 4.
    assert (SQ : 9 * (M * M) - (M + r) * (2 * M - r) * 4 = (M - 2 * r) * (M - 2 * r)) by ring. pose proof (Z.square_nonneg (M - 2 * r)). lia.
Qed.
(** The exact piecewise linear function, the result before truncation. *)
Definition ramp (c : cfg) (v : Z) : Q := ((1 # 2) + dy v (- cN c))%Q.
Lemma half_dy n : 0 < n -> (dy (2 ^ (n - 1)) (- n) == 1 # 2)%Q.
Proof. intros P. rewrite <- (Z.mul_1_l (2 ^ _)), dy_pow by lia. replace (- n + (n - 1)) with (-1) by lia. reflexivity. Qed.
Open Scope R_scope.
Lemma Q2R_quarter : Q2R (1 # 4) = / 4.
Proof. unfold Q2R. cbn. lra. Qed.
Lemma ramp_close c v : valid_cfg c -> ces c = 0%Z -> (0 <= v < 2 ^ (cN c - 1))%Z ->
  Rabs (logistic (Q2R (value c v)) - Q2R (ramp c v)) <= / 16.
Proof.
  intros V Z0 B. vcb V. destruct (Z_le_gt_dec v (2 ^ (cN c - 2))) as [L|L].
  - assert (E : (ramp c v == (1 # 2) + value c v * (1 # 4))%Q).
    { unfold ramp. rewrite unit_value by (try assumption; lia). apply Qplus_inj_l. unfold dy. rewrite <- Qmult_assoc. apply Qmult_comp; [reflexivity|]. replace (- cN c)%Z with (2 - cN c + - 2)%Z by lia. rewrite pow2_plus. reflexivity. }
    assert (X0 : 0 <= Q2R (value c v) <= 1).
    { rewrite <- RMicromega.Q2R_0, <- RMicromega.Q2R_1. split; apply Qle_Rle.
      - change 0%Q with (value c 0). pow_pos 2%Z (cN c - 1)%Z. apply (value_le c BN Bes); lia.
      - rewrite <- (value_one c V). pow_pos 2%Z (cN c - 2)%Z. assert (2 ^ (cN c - 2) < 2 ^ (cN c - 1))%Z by (apply Z.pow_lt_mono_r; lia). apply (value_le c BN Bes); lia. }
    rewrite (Qeq_eqR _ _ E), Q2R_plus, Q2R_mult, Q2R_quarter. replace (Q2R (1 # 2)) with (/ 2) by (unfold Q2R; cbn; lra). apply (logistic_unit _ X0).
  - destruct (pattern_inverse c v V Z0 ltac:(lia)) as [P1 P2]. apply Qle_Rle in P1, P2. rewrite Q2R_mult, Q2R_quarter in P1. rewrite Q2R_mult in P2. replace (Q2R (9 # 32)) with (9 / 32) in P2 by (unfold Q2R; cbn; lra).
    assert (E : (ramp c v == 1 - dy (2 ^ (cN c - 1) - v) (- cN c))%Q).
    { unfold ramp. replace (2 ^ (cN c - 1) - v)%Z with (2 ^ (cN c - 1) + - v)%Z by lia. rewrite <- dy_add, half_dy, <- dy_opp by lia. ring. }
    assert (X1 : 1 <= Q2R (value c v)).
    { rewrite <- RMicromega.Q2R_1. apply Qle_Rle. rewrite <- (value_one c V). pow_pos 2%Z (cN c - 2)%Z. apply (value_le c BN Bes); lia. }
    rewrite (Qeq_eqR _ _ E), Q2R_minus. replace (Q2R 1) with 1 by (unfold Q2R; cbn; lra). apply logistic_above; [exact X1|lra].
Qed.
Lemma trunc_close c v r : valid_cfg c -> ces c = 0%Z -> (0 <= v + 2 ^ (cN c - 1) < 2 ^ cN c)%Z -> r = ((v + 2 ^ (cN c - 1)) / 4)%Z ->
  Rabs (Q2R (value c r) - Q2R (ramp c v)) <= Q2R (pow2 (2 - cN c)).
Proof.
  intros V Z0 B ->. vcb V. pow_pos 2%Z (cN c - 2)%Z. assert (P0 : (2 ^ cN c = 2 ^ (cN c - 2) * 4)%Z) by (replace (cN c) with (cN c - 2 + 2)%Z at 1 by lia; rewrite Z.pow_add_r by lia; lia).
  set (w := (v + 2 ^ (cN c - 1))%Z) in *. assert (W : (0 <= w / 4 < 2 ^ (cN c - 2))%Z) by (split; [apply Z.div_pos; lia|apply Z.div_lt_upper_bound; lia]).
  assert (E1 : (value c (w / 4) == dy (4 * (w / 4)) (- cN c))%Q).
  { rewrite unit_value by (try assumption; lia). replace (4 * (w / 4))%Z with (w / 4 * 2 ^ 2)%Z by (change (2 ^ 2)%Z with 4%Z; lia). rewrite dy_pow by lia. replace (- cN c + 2)%Z with (2 - cN c)%Z by lia. reflexivity. }
  assert (E2 : (ramp c v == dy w (- cN c))%Q) by (unfold ramp, w; rewrite <- dy_add, half_dy by lia; ring).
  assert (E3 : (pow2 (2 - cN c) == dy 4 (- cN c))%Q) by (change 4%Z with (1 * 2 ^ 2)%Z; rewrite dy_pow by lia; replace (- cN c + 2)%Z with (2 - cN c)%Z by lia; unfold dy; change (inject_Z 1) with 1%Q; ring).
  pose proof (Z.div_mod w 4 ltac:(lia)) as DM. pose proof (Z.mod_pos_bound w 4 ltac:(lia)) as MM.
  rewrite (Qeq_eqR _ _ E1), (Qeq_eqR _ _ E2), (Qeq_eqR _ _ E3). rewrite <- Q2R_minus. apply Rabs_le. split.
  - rewrite <- Q2R_opp. apply Qle_Rle. unfold Qminus. rewrite !dy_opp, dy_add. apply dy_le. lia.
  - apply Qle_Rle. unfold Qminus. rewrite !dy_opp, dy_add. apply dy_le. lia.
Qed.
Lemma ramp_opp c v : (ramp c (- v) == 1 - ramp c v)%Q.
Proof. unfold ramp. rewrite <- dy_opp. ring. Qed.

Lemma sigmoid_close c v : valid_cfg c -> ces c = 0%Z -> real c v -> (0 <= value c v)%Q ->
  exists r, p_pseudosigmoid c v = Ok r /\ Rabs (Q2R (value c r) - / (1 + exp (- Q2R (value c v)))) <= / 16 + Q2R (pow2 (2 - cN c)).
Proof.
  intros V Z0 R P. vcb V. pose proof (real_bounds c BN Bes v R) as RB. pow_pos 2%Z (cN c - 2)%Z.
  assert (V0 : (0 <= v)%Z) by (apply (value_le_inv c BN Bes); [pow_pos 2%Z (cN c - 1)%Z; lia|lia|exact P]).
  assert (P1 : (2 ^ (cN c - 1) = 2 ^ (cN c - 3) * 4)%Z) by (replace (cN c - 1)%Z with (cN c - 3 + 2)%Z by lia; rewrite Z.pow_add_r by lia; lia).
  assert (P2 : (2 ^ cN c = 2 * 2 ^ (cN c - 1))%Z) by (replace (cN c) with (cN c - 1 + 1)%Z at 1 by lia; apply pow2_S; lia).
  eexists. split; [apply sigmoid_run; [assumption|lia]|].
  pose proof (ramp_close c v V Z0 ltac:(lia)) as A. pose proof (trunc_close c v (2 ^ (cN c - 3) + v / 4)%Z V Z0 ltac:(lia)) as T.
  assert (E : (2 ^ (cN c - 3) + v / 4 = (v + 2 ^ (cN c - 1)) / 4)%Z) by (rewrite P1, Z.div_add by lia; lia). specialize (T E).
  fold (logistic (Q2R (value c v))). set (a := Q2R (value c (2 ^ (cN c - 3) + v / 4))) in *.
  replace (a - logistic (Q2R (value c v))) with ((a - Q2R (ramp c v)) + - (logistic (Q2R (value c v)) - Q2R (ramp c v))) by ring.
  eapply Rle_trans; [apply Rabs_triang|]. rewrite Rabs_Ropp. lra.
Qed.
Lemma sigmoid_close_32 c v : valid_cfg c -> ces c = 0%Z -> cH c = 32%Z -> cN c = 32%Z -> real c v ->
  exists r, p_pseudosigmoid c v = Ok r /\ Rabs (Q2R (value c r) - / (1 + exp (- Q2R (value c v)))) <= / 16 + Q2R (pow2 (2 - cN c)).
Proof.
  intros V Z0 EH EN R. vcb V. pose proof (real_bounds c BN Bes v R) as RB. assert (PB : (2 ^ (cN c - 1) = 2 ^ 31)%Z) by (rewrite EN; reflexivity).
  assert (P2 : (2 ^ cN c = 2 * 2 ^ 31)%Z) by (rewrite EN; reflexivity).
  eexists. split; [apply sigmoid_32; [assumption|assumption|assumption|lia]|].
  pose proof (trunc_close c v ((v + 2 ^ 31) / 4)%Z V Z0 ltac:(lia) ltac:(rewrite PB; reflexivity)) as T.
  assert (A : Rabs (logistic (Q2R (value c v)) - Q2R (ramp c v)) <= / 16).
  { destruct (Z_le_gt_dec 0 v) as [L|L]; [apply ramp_close; try assumption; lia|].
    pose proof (ramp_close c (- v) V Z0 ltac:(lia)) as A. rewrite (Qeq_eqR _ _ (ramp_opp c v)), Q2R_minus in A. rewrite (Qeq_eqR _ _ (vopp c v)) in A.
    rewrite Q2R_opp, logistic_opp in A. replace (Q2R 1) with 1 in A by (unfold Q2R; cbn; lra).
    rewrite <- Rabs_Ropp. replace (- (logistic (Q2R (value c v)) - Q2R (ramp c v))) with (1 - logistic (Q2R (value c v)) - (1 - Q2R (ramp c v))) by ring. exact A. }
  fold (logistic (Q2R (value c v))). set (a := Q2R (value c ((v + 2 ^ 31) / 4))) in *.
  replace (a - logistic (Q2R (value c v))) with ((a - Q2R (ramp c v)) + - (logistic (Q2R (value c v)) - Q2R (ramp c v))) by ring.
  eapply Rle_trans; [apply Rabs_triang|]. rewrite Rabs_Ropp. lra.
Qed.
Lemma softplus_off c v : valid_cfg c -> real c v -> (1 <= value c v)%Q -> (v mod 2 = 0)%Z -> csp c <> WithNanInf \/ (value c v < value c (maxreal c))%Q ->
  exists r, p_pseudosoftplus c v = Ok r /\ Q2R (value c r) - ln (1 + exp (Q2R (value c v))) > Q2R (value c v) - 1.
Proof.
  intros V R X EV NI. vcb V. pose proof (real_bounds c BN Bes v R) as RB. pow_pos 2%Z (cN c - 2)%Z.
  assert (V1 : (2 ^ (cN c - 2) <= v)%Z) by (apply (value_le_inv c BN Bes); [assert (2 ^ (cN c - 2) < 2 ^ (cN c - 1))%Z by (apply Z.pow_lt_mono_r; lia); lia|lia|rewrite value_one by assumption; exact X]).
  eexists. split; [apply softplus_run; [assumption|lia]|].
  assert (D : v = (2 * (v / 2))%Z) by (pose proof (Z.div_mod v 2 ltac:(lia)); lia).
  assert (E : (value c (2 ^ (cN c - 2) + v / 2) == value c v * pow2 (2 ^ ces c))%Q) by (rewrite value_useed by (try assumption; lia); rewrite <- D; reflexivity).
  rewrite (Qeq_eqR _ _ E), Q2R_mult.
  assert (X1 : 1 <= Q2R (value c v)) by (rewrite <- RMicromega.Q2R_1; apply Qle_Rle; exact X).
  assert (U : 2 <= Q2R (pow2 (2 ^ ces c))).
  { replace 2 with (Q2R 2) by (unfold Q2R; cbn; lra). apply Qle_Rle. change 2%Q with (pow2 1). apply pow2_le. pow_pos 2%Z (ces c). lia. }
  pose proof (log1p_lt (Q2R (value c v)) ltac:(lra)) as L. nra.
Qed.
(** posit8: every negative number gives a number below -1/2. *)
Lemma sigmoid_neg8 v : real p8 v -> (v < 0)%Z -> exists r, p_pseudosigmoid p8 v = Ok r /\ real p8 r /\ (value p8 r <= - (1 # 2))%Q.
Proof.
  intros R N. pose proof (real_bounds p8 ltac:(cbn; lia) ltac:(cbn; lia) v R) as RB. change (2 ^ (cN p8 - 1))%Z with 128%Z in RB.
  pose (t := fun v => match p_pseudosigmoid p8 v with Ok r => (((-127 <=? r) && (r <=? 127))%Z && Qle_bool (value p8 r) (- (1 # 2))%Q)%bool | _ => false end).
  assert (A : forallb t (map (fun k => - Z.of_nat k - 1)%Z (seq 0 127)) = true) by (vm_compute; reflexivity).
  rewrite forallb_forall in A. specialize (A v). assert (I : In v (map (fun k => - Z.of_nat k - 1)%Z (seq 0 127))).
  { apply in_map_iff. exists (Z.to_nat (- v - 1)). split; [lia|]. apply in_seq. lia. }
  specialize (A I). unfold t in A. destruct (p_pseudosigmoid p8 v) as [r|]; [|discriminate].
  apply andb_prop in A. destruct A as [A B]. apply andb_prop in A. exists r. split; [reflexivity|]. split; [|apply Qle_bool_iff; exact B].
  unfold real, maxreal. cbn. lia.
Qed.
Lemma sigmoid_off8 v : real p8 v -> (v < 0)%Z ->
  exists r, p_pseudosigmoid p8 v = Ok r /\ real p8 r /\ Rabs (Q2R (value p8 r) - / (1 + exp (- Q2R (value p8 v)))) > / 2.
Proof.
  intros R N. destruct (sigmoid_neg8 v R N) as (r & E & Rr & L). exists r. split; [exact E|]. split; [exact Rr|].
  apply Qle_Rle in L. replace (Q2R (- (1 # 2))) with (- / 2) in L by (unfold Q2R; cbn; lra).
  pose proof (exp_pos (- Q2R (value p8 v))). assert (0 < / (1 + exp (- Q2R (value p8 v)))) by (apply Rinv_0_lt_compat; lra).
  rewrite Rabs_left by lra. lra.
Qed.
