(** Property-level lemmas: arithmetic, unary operations, constants, neighbours. *)
From Coq Require Import ZArith QArith Qabs Lia Lqa Bool List.
From Verif Require Import Res CInt Bits Traits Unpacked Cfg Posit Spec QPow Core SpecLemmas Arith
  DecodeProof EncodeProof UOps UAdd Ops OpsAdd OpsUnary OpsUnary2 Specials Room Laws Final1.
Open Scope Z_scope.

Lemma mul_total c a b : valid_cfg c -> exp_ok c -> mul_fits c -> real c a -> real c b ->
  (room c (value c a * value c b) ->
     exists r, p_mul c a b = Ok r /\ rounds_tz c (value c a * value c b) r) /\
  (~ room c (value c a * value c b) -> p_mul c a b = UB ShiftCount).
Proof.
  intros V X MF Ra Rb. destruct (p_mul_room c a b V X MF Ra Rb) as [A B]. split; [|assumption].
  intros H. destruct (A H) as [r E]. exists r. split; [assumption|]. apply p_mul_rounds; assumption.
Qed.
Lemma div_total c a b : valid_cfg c -> exp_ok c -> mul_fits c -> real c a -> real c b -> b <> 0 ->
  (room c (value c a / value c b) ->
     exists r, p_div c a b = Ok r /\ rounds_tz c (value c a / value c b) r) /\
  (~ room c (value c a / value c b) -> p_div c a b = UB ShiftCount).
Proof.
  intros V X MF Ra Rb Nb. destruct (p_div_room c a b V X MF Ra Rb Nb) as [A B]. split; [|assumption].
  intros H. destruct (A H) as [r E]. exists r. split; [assumption|]. apply p_div_rounds; assumption.
Qed.
Lemma add_same_total c a b : valid_cfg c -> exp_ok c -> mul_fits c -> real c a -> real c b -> same_sign a b ->
  (near c (value c a) (value c b) /\ room c (value c a + value c b) ->
     exists r, p_add c a b = Ok r /\ rounds_tz c (value c a + value c b) r) /\
  (~ near c (value c a) (value c b) \/ ~ room c (value c a + value c b) -> p_add c a b = UB ShiftCount).
Proof.
  intros V X MF Ra Rb SS. destruct (p_add_same_room c a b V X MF Ra Rb SS) as [A B]. split; [|assumption].
  intros [H1 H2]. destruct (A H1 H2) as [r E]. exists r. split; [assumption|]. apply p_add_same_rounds; try assumption.
  unfold same_sign in SS. lia.
Qed.
Lemma add_total c a b : valid_cfg c -> exp_ok c -> add_fits c -> real c a -> real c b ->
  (near c (value c a) (value c b) /\ room_up c (value c a + value c b) \/ a = 0 \/ b = 0 ->
    exists r, p_add c a b = Ok r /\ faithful c (value c a + value c b) r /\ sign_ok (value c a + value c b) r) /\
  (~ near c (value c a) (value c b) -> p_add c a b = UB ShiftCount).
Proof.
  intros V X AF Ra Rb.
  destruct (Z.eq_dec a 0) as [->|Na].
  { split.
    - intros _. exists b. split; [reflexivity|]. apply p_add_faithful; try assumption. reflexivity.
    - intros N. exfalso. apply N. intros ea eb S. exfalso. eapply scale_nz; [exact S|]. apply v0. }
  destruct (Z.eq_dec b 0) as [->|Nb].
  { assert (E : p_add c a 0 = Ok a) by (unfold p_add, iszero; destruct (Z.eqb_spec a 0); [contradiction|reflexivity]).
    split.
    - intros _. exists a. split; [assumption|]. apply p_add_faithful; assumption.
    - intros N. exfalso. apply N. intros ea eb _ S. exfalso. eapply scale_nz; [exact S|]. apply v0. }
  destruct (p_add_room c a b V X AF Ra Rb Na Nb) as [A B]. split; [|assumption].
  intros [[H1 H2]|[H|H]]; try contradiction. destruct (A H1 H2) as [r E]. exists r. split; [assumption|].
  apply p_add_faithful; assumption.
Qed.
Lemma sub_total c a b : valid_cfg c -> exp_ok c -> add_fits c -> real c a -> real c b ->
  (near c (value c a) (value c b) /\ room_up c (value c a - value c b) \/ a = 0 \/ b = 0 ->
    exists r, p_sub c a b = Ok r /\ faithful c (value c a - value c b) r /\ sign_ok (value c a - value c b) r) /\
  (~ near c (value c a) (value c b) -> p_sub c a b = UB ShiftCount).
Proof.
  intros V X AF Ra Rb. rewrite p_sub_add by assumption.
  pose proof (add_total c a (- b) V X AF Ra (ropp c b Rb)) as [A B].
  assert (E : (value c a + value c (- b) == value c a - value c b)%Q) by (rewrite vopp; ring).
  assert (NE : near c (value c a) (value c (- b)) <-> near c (value c a) (value c b)).
  { split; intros N ea eb Sa Sb.
    - apply N; [assumption|]. eapply scale_comp; [symmetry; apply vopp|]. apply scale_opp; assumption.
    - apply N; [assumption|]. apply scale_opp in Sb. eapply scale_comp; [|exact Sb]. rewrite vopp. ring. }
  split.
  - intros H. destruct A as [r [P [F S]]].
    + destruct H as [[H1 H2]|[H|H]]; [left; split; [apply NE; assumption|]|right; left; assumption|right; right; lia].
      destruct H2 as [Z0|[e [S [R1 R2]]]]; [left; rewrite E; assumption|right].
      exists e. split; [|split; assumption]. eapply scale_comp; [symmetry; exact E|assumption].
    + exists r. split; [assumption|]. split; [eapply faithful_comp; [exact E|assumption]|].
      unfold sign_ok in *. rewrite <- E. assumption.
  - intros N. apply B. rewrite NE. assumption.
Qed.
Lemma sub_any c a b r : valid_cfg c -> exp_ok c -> add_fits c -> real c a -> real c b -> p_sub c a b = Ok r ->
  faithful c (value c a - value c b) r /\ sign_ok (value c a - value c b) r.
Proof.
  intros V X AF Ra Rb P. rewrite p_sub_add in P by assumption.
  destruct (p_add_faithful c a (- b) r V X AF Ra (ropp c b Rb) P) as [F S].
  assert (E : (value c a + value c (- b) == value c a - value c b)%Q) by (rewrite vopp; ring).
  split; [eapply faithful_comp; [exact E|assumption]|]. unfold sign_ok in *. rewrite <- E. assumption.
Qed.

(** ** inv *)
Lemma inv_div c x r s : valid_cfg c -> exp_ok c -> mul_fits c -> real c x -> x <> 0 -> ~ inv_escapes c x ->
  p_inv c x = Ok r -> p_div c (p_one c) x = Ok s -> r = s.
Proof.
  intros V X MF R NZ NE P Q. vcb V. pose proof (one_real c V). rewrite one_val in Q by assumption.
  apply (rounds_tz_unique c BN Bes (/ value c x)); [apply p_inv_rounds; assumption|].
  apply p_div_rounds in Q; try assumption. eapply rounds_tz_comp; try assumption; [|exact Q].
  rewrite one_value by assumption. unfold Qdiv. ring.
Qed.
Lemma inv_total c x : valid_cfg c -> exp_ok c -> mul_fits c -> roomy c -> real c x -> x <> 0 ->
  ~ inv_escapes c x ->
  exists r, p_inv c x = Ok r /\ rounds_tz c (/ value c x) r /\ p_div c (p_one c) x = Ok r.
Proof.
  intros V X MF Rm R NZ NE. destruct (p_inv_defined c x V X MF Rm R NZ) as [r P]. exists r. split; [assumption|].
  split; [apply p_inv_rounds; assumption|]. pose proof (one_real c V).
  destruct (p_div_defined c (p_one c) x) as [s Q]; try assumption; [rewrite one_val; assumption|].
  rewrite Q. f_equal. symmetry. apply (inv_div c x); assumption.
Qed.
Lemma inv_special c : valid_cfg c -> p_inv c 0 = Ok 0 /\ (forall i, is_inf c i -> p_inv c i = Ok i).
Proof.
  intros V. vcb V. pose proof (maxreal_bounds c BN Bes). split.
  - destruct (real_not_special c 0 V ltac:(unfold real; lia)) as [A B].
    unfold p_inv, unpack_low. rewrite A, B. cbn [Z.eqb ul_special bind lfrac lexp lreg iszero].
    unfold cneg. rewrite small_arith by (assumption || lia). reflexivity.
  - intros i I. pose proof (inf_of_inf c i V I) as E. pose proof (proj2 (isinf_spec c i V) I) as II.
    unfold p_inv, unpack_low. rewrite II. cbn [Z.eqb ul_special bind lfrac lexp lreg ltyp lneg].
    unfold cneg. rewrite small_arith by (assumption || lia). cbn [bind].
    pose proof (pack_inf c (i <? 0) 0 0 V) as P.
    unfold pack_posit, unpacked_full2low in P. cbn [utyp uneg bind] in P.
    unfold pack_low in *. cbn [ltyp lneg ul_special] in *. rewrite P, E. reflexivity.
Qed.
Lemma inv_nan c a : valid_cfg c -> is_nan c a -> p_inv c a = Ok a.
Proof.
  intros V N. vcb V. pose proof (proj2 (isNaN_spec c a V) N) as E.
  destruct (isinfinity c a) eqn:I.
  { apply isinf_spec in I; [|assumption]. destruct (kinds_disjoint c a V) as [D _]. tauto. }
  unfold p_inv, unpack_low. rewrite E, I. cbn [Z.eqb ul_special bind lfrac lexp lreg ltyp lneg].
  unfold cneg. rewrite small_arith by (assumption || lia). cbn [bind].
  pose proof (pack_nan c false 0 0 V) as P. unfold pack_posit, unpacked_full2low in P. cbn [utyp uneg bind] in P.
  unfold pack_low in *. cbn [ltyp lneg ul_special] in *. rewrite P. f_equal. symmetry. apply nan_exc, N.
Qed.

(** inv is exact on powers of two. *)
Lemma inv_exact c x y r : valid_cfg c -> exp_ok c -> mul_fits c -> real c x -> real c y -> x <> 0 ->
  ~ inv_escapes c x -> (value c x * value c y == 1)%Q -> p_inv c x = Ok r -> r = y.
Proof.
  intros V X MF Rx Ry NZ NE E P. vcb V.
  assert (NV : ~ (value c x == 0)%Q) by (apply value_nz; assumption).
  apply (rounds_tz_unique c BN Bes (/ value c x)); [apply p_inv_rounds; assumption|].
  eapply rounds_tz_comp; try assumption; [|apply rounds_tz_exact; eassumption].
  apply (Qmult_inj_l _ _ (value c x)); [assumption|]. rewrite E. field. assumption.
Qed.

(** ** twice and half *)
Lemma maxreal_down c x : valid_cfg c -> (value c (maxreal c) <= x)%Q -> down_pos c x (maxreal c).
Proof.
  intros V L. vcb V. pose proof (maxreal_bounds c BN Bes) as MB.
  split; [unfold real; lia|]. split; [apply (value_pos c BN Bes); lia|]. split.
  - intros w Rw _ _. apply real_value_le; try assumption; unfold real in *; lia.
  - left. assumption.
Qed.
Lemma top_rounds c v x : valid_cfg c -> Z.abs v = maxreal c -> (Qabs (value c v) <= Qabs x)%Q ->
  (0 < value c v * x)%Q -> rounds_tz c x v.
Proof.
  intros V A L S. vcb V. pose proof (maxreal_bounds c BN Bes) as MB.
  pose proof (value_pos c BN Bes (maxreal c) ltac:(lia)) as VP.
  destruct (Z_lt_le_dec v 0) as [N|N].
  - assert (E : v = - maxreal c) by lia. subst v. rewrite vopp in *.
    assert (X0 : (x < 0)%Q) by (apply Qnot_le_lt; intros X1;
      assert ((- value c (maxreal c) * x <= 0)%Q) by nra; lra).
    right; right. split; [assumption|]. replace (- - maxreal c) with (maxreal c) by lia.
    apply maxreal_down; [assumption|]. rewrite Qabs_neg, (Qabs_neg x) in L by lra. lra.
  - assert (E : v = maxreal c) by lia. subst v.
    assert (X0 : (0 < x)%Q) by (apply Qnot_le_lt; intros X1;
      assert ((value c (maxreal c) * x <= 0)%Q) by nra; lra).
    right; left. split; [assumption|]. apply maxreal_down; [assumption|].
    rewrite !Qabs_pos in L by lra. lra.
Qed.

Lemma twice_rounds c v r : valid_cfg c -> real c v ->
  ~ (csp c = WithNanInf /\ ces c = 0 /\ Z.abs v = maxreal c) ->
  p_twice c v = Ok r -> rounds_tz c (value c v * (2 # 1)) r.
Proof.
  intros V R NE P. vcb V. pose proof (maxreal_bounds c BN Bes) as MB.
  destruct (Z_lt_le_dec (Z.abs v) (maxreal c)) as [L|L].
  { apply p_twice_rounds0; auto. }
  destruct (Z.eq_dec (ces c) 0) as [E0|E0]; [|apply p_twice_rounds0; try assumption; lia].
  assert (A : Z.abs v = maxreal c) by (unfold real in R; lia).
  pose proof (p_twice_top c v r V E0 R A P) as E.
  assert (MX : maxreal c = 2 ^ (cN c - 1) - 1).
  { unfold maxreal. destruct (csp c) eqn:S; try reflexivity. exfalso. apply NE. auto. }
  assert (EV : r = v) by (rewrite E; unfold sg; destruct (Z.ltb_spec v 0); lia). clear E. subst r.
  assert (NV : ~ (value c v == 0)%Q) by (apply value_nz; try assumption; lia).
  apply top_rounds; try assumption.
  - pose proof (Qabs_Qmult (value c v) (2 # 1)) as QM. change (Qabs (2 # 1)) with (2 # 1)%Q in QM.
    rewrite QM. pose proof (Qabs_nonneg (value c v)) as Q0. set (q := Qabs (value c v)) in *.
    clearbody q. clear QM. lra.
  - assert (SQ : (0 < value c v * value c v)%Q).
    { destruct (Qlt_le_dec 0 (value c v)); [nra|]. assert ((value c v < 0)%Q); [|nra].
      apply Qnot_le_lt. intros G. apply NV. lra. }
    nra.
Qed.
Lemma twice_escape c v r : valid_cfg c -> csp c = WithNanInf -> ces c = 0 -> real c v -> Z.abs v = maxreal c ->
  p_twice c v = Ok r -> r = inf_of c (v <? 0).
Proof.
  intros V S E0 R A P. rewrite (p_twice_top c v r V E0 R A P). unfold inf_of, sg. rewrite S.
  destruct (v <? 0); lia.
Qed.
Lemma twice_defined c v : valid_cfg c -> cN c + 2 < Z.max 32 (cH c) -> real c v -> exists r, p_twice c v = Ok r.
Proof.
  intros V Rm R. vcb V. assert (RM : roomy c) by (unfold roomy; lia). pose proof (maxreal_bounds c BN Bes) as MB.
  destruct (Z.eq_dec v 0) as [->|NZ].
  { destruct (real_not_special c 0 V R) as [A B]. unfold p_twice, unpack_low. rewrite A, B. eexists; reflexivity. }
  destruct (Z_lt_le_dec (Z.abs v) (maxreal c)) as [L|L].
  { destruct (p_twice_core c v V R NZ ltac:(auto)) as [n [k [e [f [E [IR [He [Hf [M VV]]]]]]]]].
    rewrite E. apply pack_low_defined; assumption. }
  destruct (Z.eq_dec (ces c) 0) as [E0|E0].
  2: { destruct (p_twice_core c v V R NZ ltac:(lia)) as [n [k [e [f [E [IR [He [Hf [M VV]]]]]]]]].
       rewrite E. apply pack_low_defined; assumption. }
  assert (A : Z.abs v = maxreal c) by (unfold real in R; lia).
  unfold p_twice. rewrite unpack_low_top by assumption.
  cbn [bind ltyp lexp lreg lneg lfrac]. unfold REG_SCALE. rewrite E0. change (0 =? 2 ^ 0 - 1) with true. cbv iota.
  assert (MK : cN c - 3 <= maxk c <= cN c - 2) by (unfold maxk; destruct (spec_eqb _ _); lia).
  unfold cadd. rewrite small_arith by (assumption || lia). cbn [bind]. rewrite reg_cast by (assumption || lia).
  destruct (Z.eq_dec (maxk c) (cN c - 2)) as [E|E].
  2: { pow_pos 2 (cH c). apply pack_low_defined; try assumption; [unfold inreg; lia|rewrite E0; cbn; lia|lia]. }
  rewrite E. replace (cN c - 2 + 1) with (cN c - 1) by lia.
  (* packing just above the largest regime *)
  unfold pack_low. cbn [ltyp lneg lreg lexp lfrac]. unfold cneg, cadd, csub.
  rewrite !small_arith by (assumption || lia). cbn [bind].
  rewrite !small_arith by (assumption || lia). cbn [bind].
  rewrite Z.gtb_ltb. destruct (Z.ltb_spec (cN c - 1 + 2) (- (cN c - 1) + 1)); [lia|].
  rewrite !small_arith by (assumption || lia). cbn [bind].
  rewrite !small_arith by (assumption || lia). cbn [bind].
  rewrite E0. destruct (Z.ltb_spec (cN c - (cN c - 1 + 2) - 1) 0); [|lia].
  destruct (Z.ltb_spec (cN c - 1) 0); [lia|].
  assert (IW : iw (prom (uint (cH c))) = pw (cH c)) by (apply iw_prom_uint, vc_H; assumption).
  unfold HOLDER_SIZE, tU.
  pow_pos 2 (cN c - 1). pow_pos 2 (cH c - cN c).
  assert (EN : 2 ^ cN c = 2 * 2 ^ (cN c - 1))
    by (replace (cN c) with ((cN c - 1) + 1) at 1 by lia; apply pow2_S; lia).
  assert (EHN : 2 ^ cN c * 2 ^ (cH c - cN c) = 2 ^ cH c) by (rewrite <- Z.pow_add_r by lia; f_equal; lia).
  assert (PMv : P_MASK c = 2 ^ cN c - 1).
  { unfold P_MASK, P_MSB, cor.
    rewrite <- (Z.mul_1_l (2 ^ (cN c - 1))) at 2. rewrite lor_add by lia. lia. }
  pose proof (pow2_mono (cN c) (cH c) ltac:(lia)) as PMH.
  rewrite PMv.
  destruct (cshl_u_exact (cH c) (2 ^ cN c - 1) (cH c - (cN c - 1 + 1))) as [q [Q1 Q2]];
    try (apply (vc_H _ V)); try (unfold pw; lia).
  { replace (cH c - (cN c - 1 + 1)) with (cH c - cN c) by lia. lia. }
  rewrite Q1. cbn [bind]. unfold msb_exp. rewrite E0. cbn [Z.eqb bind].
  rewrite cshr_ok by (rewrite IW; unfold pw; lia). cbn [bind].
  rewrite cshr_ok by (rewrite IW; unfold pw; lia). cbn [bind].
  rewrite cshr_ok by (rewrite IW; unfold pw; lia). cbn [bind].
  rewrite cshr_ok by (rewrite IW; unfold pw; lia). cbn [bind].
  rewrite !Z.div_0_l by (apply Z.pow_nonzero; lia).
  unfold cor. rewrite !Z.lor_0_l. rewrite Q2. replace (cH c - (cN c - 1 + 1)) with (cH c - cN c) by lia.
  rewrite div_div2 by lia.
  assert (D : (2 ^ cN c - 1) * 2 ^ (cH c - cN c) / 2 ^ (1 + (cH c - cN c)) = 2 ^ (cN c - 1) - 1).
  { symmetry. apply (Z.div_unique _ _ _ (2 ^ (cH c - cN c))).
    - left. replace (1 + (cH c - cN c)) with ((cH c - cN c) + 1) by lia. rewrite pow2_S by lia. lia.
    - replace (1 + (cH c - cN c)) with ((cH c - cN c) + 1) by lia. rewrite pow2_S by lia. rewrite EN. ring. }
  rewrite D. pose proof (pwH_bound c V) as PB. unfold tS. rewrite cast_s_small by lia.
  destruct (v <? 0); [|eauto]. rewrite arith_ps by (try apply (vc_H _ V); lia). cbn [bind]. eauto.
Qed.

Lemma half_refuted c : valid_cfg c -> roomy c -> p_half c 1 = Ok 0.
Proof.
  intros V Rm. vcb V.
  assert (D : exists r, p_half c 1 = Ok r).
  { unfold p_half. rewrite unpack_low_1 by auto.
    cbn [bind ltyp lexp lreg lneg lfrac Z.eqb]. unfold csub.
    rewrite small_arith by (assumption || lia). cbn [bind].
    rewrite reg_cast by (assumption || lia). unfold REG_SCALE. pow_pos 2 (ces c).
    rewrite exp_cast by (assumption || lia).
    replace (- (cN c - 2) - 1) with (- (cN c - 1)) by lia.
    change (1 <? 0) with false.
    unfold pack_low. cbn [ltyp lneg lreg lexp lfrac]. unfold cneg, cadd, csub.
    rewrite !small_arith by (assumption || lia). cbn [bind].
    rewrite !small_arith by (assumption || lia). cbn [bind].
    replace (- - (cN c - 1) + 1) with (cN c) by lia.
    rewrite Z.gtb_ltb. destruct (Z.ltb_spec (- (cN c - 1) + 2) (cN c)); [|lia].
    rewrite !small_arith by (assumption || lia). cbn [bind].
    rewrite !small_arith by (assumption || lia). cbn [bind].
    destruct (Z.ltb_spec (cN c - cN c - 1) (ces c)); [|lia].
    destruct (Z.ltb_spec (- (cN c - 1)) 0); [|lia].
    assert (IW : iw (prom (uint (cH c))) = pw (cH c)) by (apply iw_prom_uint, vc_H; assumption).
    unfold tU, roomy in *.
    rewrite cshr_ok by (rewrite IW; unfold pw; lia). cbn [bind].
    destruct (msb_exp_val c (2 ^ ces c - 1) V ltac:(lia)) as [m [Em Hm]]. rewrite Em. cbn [bind].
    rewrite cshr_ok by (rewrite IW; unfold pw; lia). cbn [bind].
    rewrite cshr_ok by (rewrite IW; unfold pw; lia). cbn [bind].
    rewrite cshr_ok by (rewrite IW; unfold pw; lia). cbn [bind].
    rewrite cshr_ok by (rewrite IW; unfold pw; lia). cbn [bind]. eauto. }
  destruct D as [r E]. rewrite E. f_equal. eapply p_half_minpos; [eassumption| |eassumption]. auto.
Qed.

(** ** Neighbours *)
Lemma next_in c v : valid_cfg c -> real c v -> v <> maxreal c -> v <> - maxreal c ->
  exists r, p_next c v = Ok r /\ real c r /\ (value c v < value c r)%Q /\
    (forall w, real c w -> (value c v < value c w)%Q -> (value c r <= value c w)%Q).
Proof.
  intros V R N1 N2. vcb V. pose proof (maxreal_bounds c BN Bes) as MB. unfold real in R.
  exists (v + 1). split; [apply p_next_in; [assumption|lia]|]. split; [unfold real; lia|]. split.
  - apply (value_lt c BN Bes); lia.
  - intros w Rw L. unfold real in Rw. apply (value_lt_inv c BN Bes) in L; try lia. apply (value_le c BN Bes); lia.
Qed.
Lemma prev_in c v : valid_cfg c -> real c v -> v <> - maxreal c ->
  exists r, p_prev c v = Ok r /\ real c r /\ (value c r < value c v)%Q /\
    (forall w, real c w -> (value c w < value c v)%Q -> (value c w <= value c r)%Q).
Proof.
  intros V R N2. vcb V. pose proof (maxreal_bounds c BN Bes) as MB. unfold real in R.
  exists (v - 1). split; [apply p_prev_in; [assumption|lia]|]. split; [unfold real; lia|]. split.
  - apply (value_lt c BN Bes); lia.
  - intros w Rw L. unfold real in Rw. apply (value_lt_inv c BN Bes) in L; try lia. apply (value_le c BN Bes); lia.
Qed.

(** ** Constants *)
Lemma small_deep c x : valid_cfg c -> - 2 ^ (cN c - 1) <= x < 2 ^ (cN c - 1) -> deep c x = x.
Proof. intros V B. vcb V. pose proof (pwH_bound c V). unfold deep, tS. apply cast_s_small; lia. Qed.

Lemma const_vals c : valid_cfg c ->
  p_zero c = 0 /\ p_one c = 2 ^ (cN c - 2) /\ p_mone c = - 2 ^ (cN c - 2) /\
  p_max c = maxreal c /\ p_min c = 1 /\ p_lowest c = - maxreal c /\
  p_nan c = exceptional c /\ p_pinf c = inf_of c false /\ p_inf c = inf_of c false /\ p_ninf c = inf_of c true.
Proof.
  intros V. vcb V. pose proof (maxreal_bounds c BN Bes) as MB. pose proof (pow_ge4 c V).
  split; [reflexivity|]. split; [apply one_val, V|]. split; [apply mone_val, V|].
  unfold p_max, p_min, p_lowest, p_nan, p_pinf, p_inf, p_ninf, exceptional, inf_of, P_AFTER0.
  rewrite P_MAXPOS_val, P_MINNEG_val, P_NAN_val, P_PINF_val, P_NINF_val by assumption.
  rewrite !small_deep by (try assumption; destruct (csp c); cbn [spec_eqb]; lia).
  destruct (csp c); cbn [spec_eqb]; repeat split.
Qed.

Lemma two_pat c : valid_cfg c -> p_two c = 2 ^ (cN c - 2) + 2 ^ (cN c - 3 - ces c).
Proof.
  intros V. vcb V. destruct (pow_split c V) as [P1 P2].
  unfold p_two, P_TWO, INVERTBIT.
  assert (D : 2 ^ (cN c - 2) / 2 ^ (1 + ces c) = 2 ^ (cN c - 3 - ces c)).
  { rewrite <- Z.pow_sub_r by lia. f_equal. lia. }
  rewrite D. unfold cor. rewrite Z.lor_comm, <- (Z.mul_1_l (2 ^ (cN c - 2))).
  pow_pos 2 (cN c - 3 - ces c).
  assert (L : 2 ^ (cN c - 3 - ces c) < 2 ^ (cN c - 2)) by (apply Z.pow_lt_mono_r; lia).
  rewrite lor_add by lia. rewrite Z.mul_1_l. rewrite Z.add_comm.
  set (x := 2 ^ (cN c - 2) + 2 ^ (cN c - 3 - ces c)).
  assert (B : - 2 ^ (cN c - 1) <= x < 2 ^ (cN c - 1)) by (unfold x; lia).
  change (cast (tS c) x) with (deep c x). rewrite ?(small_deep c x V B). rewrite ?(small_deep c x V B). reflexivity.
Qed.

Lemma two_pdec c : valid_cfg c ->
  pdec (cN c) (2 ^ (cN c - 2) + 2 ^ (cN c - 3 - ces c)) = 2 ^ (cN c - 3 - ces c).
Proof.
  intros V. vcb V. destruct (pow_split c V) as [P1 P2].
  assert (P3 : 2 ^ (cN c - 2) = 2 * 2 ^ (cN c - 3)) by (replace (cN c - 2) with ((cN c - 3) + 1) by lia; apply pow2_S; lia).
  pow_pos 2 (cN c - 3). pow_pos 2 (cN c - 3 - ces c).
  destruct (Z.eq_dec (ces c) 0) as [E|E].
  - rewrite E in *. rewrite Z.sub_0_r in *.
    assert (B : base (cN c) 1 = 2 ^ (cN c - 2) + 2 ^ (cN c - 3)).
    { unfold base. cbn [Z.leb Z.compare]. replace (cN c - 2 - 1) with (cN c - 3) by lia. lia. }
    assert (R : reg (cN c) (2 ^ (cN c - 2) + 2 ^ (cN c - 3)) = 1).
    { assert (IR : inreg (cN c) 1) by (unfold inreg; lia).
      apply reg_unique; try assumption. rewrite B. pose proof (cnt_pos (cN c) BN 1 IR). lia. }
    unfold pdec. rewrite R, B. lia.
  - assert (L : 2 ^ (cN c - 3 - ces c) < 2 ^ (cN c - 3)) by (apply Z.pow_lt_mono_r; lia).
    assert (R : reg (cN c) (2 ^ (cN c - 2) + 2 ^ (cN c - 3 - ces c)) = 0).
    { apply reg_unique; [assumption|unfold inreg; lia|]. rewrite base_0 by assumption.
      unfold cnt, sft. destruct (Z.eqb_spec 0 (cN c - 2)); [lia|]. cbn [Z.leb Z.compare].
      rewrite Z.sub_0_r. lia. }
    unfold pdec. rewrite R, base_0 by assumption. unfold sft. cbn [Z.leb Z.compare]. lia.
Qed.
Lemma half_pdec c : valid_cfg c ->
  pdec (cN c) (2 ^ (cN c - 2) - 2 ^ (cN c - 3 - ces c)) = - 2 ^ (cN c - 3 - ces c).
Proof.
  intros V. vcb V. destruct (pow_split c V) as [P1 P2].
  assert (P3 : 2 ^ (cN c - 2) = 2 * 2 ^ (cN c - 3)) by (replace (cN c - 2) with ((cN c - 3) + 1) by lia; apply pow2_S; lia).
  pow_pos 2 (cN c - 3). pow_pos 2 (cN c - 3 - ces c).
  assert (L : 2 ^ (cN c - 3 - ces c) <= 2 ^ (cN c - 3)) by (apply Z.pow_le_mono_r; lia).
  assert (B : base (cN c) (-1) = 2 ^ (cN c - 3)).
  { unfold base. cbn [Z.leb Z.compare]. f_equal. lia. }
  assert (R : reg (cN c) (2 ^ (cN c - 2) - 2 ^ (cN c - 3 - ces c)) = -1).
  { apply reg_unique; [assumption|unfold inreg; lia|]. rewrite B.
    unfold cnt, sft. destruct (Z.eqb_spec (-1) (cN c - 2)); [lia|]. cbn [Z.leb Z.compare].
    replace (cN c - 3 - (- -1 - 1)) with (cN c - 3) by lia. lia. }
  unfold pdec. rewrite R, B. unfold sft. cbn [Z.leb Z.compare]. replace (- -1 - 1) with 0 by lia. lia.
Qed.

Lemma two_value c : valid_cfg c -> (value c (p_two c) == 2)%Q.
Proof.
  intros V. vcb V. destruct (pow_split c V) as [P1 P2]. pow_pos 2 (cN c - 3 - ces c).
  assert (L : 2 ^ (cN c - 3 - ces c) < 2 ^ (cN c - 2)) by (apply Z.pow_lt_mono_r; lia).
  rewrite two_pat by assumption. rewrite (value_pos_lval c BN Bes) by lia. rewrite two_pdec by assumption.
  pose proof (gran_nonneg c BN Bes). rewrite <- (Z.mul_1_l (2 ^ _)).
  change (cN c - 3 - ces c) with (gran c). rewrite lval_pow2 by assumption. reflexivity.
Qed.
Lemma two_real c : valid_cfg c -> (csp c = WithNanInf -> cN c <> 3) -> real c (p_two c).
Proof.
  intros V NE. vcb V. destruct (pow_split c V) as [P1 P2]. rewrite two_pat by assumption.
  pow_pos 2 (cN c - 3 - ces c).
  assert (P3 : 2 ^ (cN c - 2) = 2 * 2 ^ (cN c - 3)) by (replace (cN c - 2) with ((cN c - 3) + 1) by lia; apply pow2_S; lia).
  assert (L : 2 ^ (cN c - 3 - ces c) <= 2 ^ (cN c - 3)) by (apply Z.pow_le_mono_r; lia).
  unfold real, maxreal. destruct (csp c) eqn:E; try lia.
  assert (2 ^ 1 <= 2 ^ (cN c - 3)) by (apply Z.pow_le_mono_r; pose proof (NE eq_refl); lia). lia.
Qed.
Lemma two_inf c : valid_cfg c -> csp c = WithNanInf -> cN c = 3 -> p_two c = inf_of c false.
Proof.
  intros V S E. vcb V. rewrite two_pat by assumption. unfold inf_of. rewrite S, E.
  replace (ces c) with 0 by lia. reflexivity.
Qed.

Definition half_pattern (c : cfg) : Z := 2 ^ (cN c - 2) - 2 ^ (cN c - 3 - ces c).
Lemma half_real c : valid_cfg c -> real c (half_pattern c) /\ 0 < half_pattern c.
Proof.
  intros V. vcb V. destruct (pow_split c V) as [P1 P2]. unfold half_pattern.
  pow_pos 2 (cN c - 3 - ces c).
  assert (L : 2 ^ (cN c - 3 - ces c) < 2 ^ (cN c - 2)) by (apply Z.pow_lt_mono_r; lia).
  unfold real, maxreal. destruct (csp c); lia.
Qed.
Lemma half_value c : valid_cfg c -> (value c (half_pattern c) == 1 # 2)%Q.
Proof.
  intros V. vcb V. destruct (half_real c V) as [R P]. pose proof (real_bounds c BN Bes _ R).
  unfold half_pattern in *. rewrite (value_pos_lval c BN Bes) by lia. rewrite half_pdec by assumption.
  pose proof (gran_nonneg c BN Bes). rewrite <- (Z.mul_1_l (2 ^ _)).
  change (cN c - 3 - ces c) with (gran c).
  replace (- (1 * 2 ^ gran c)) with ((-1) * 2 ^ gran c) by ring. rewrite lval_pow2 by assumption. reflexivity.
Qed.
Lemma onehalf_pat c : valid_cfg c -> p_onehalf c = 2 ^ (cH c - 2) - 2 ^ (cN c - 3 - ces c).
Proof.
  intros V. vcb V. unfold p_onehalf, deep, P_HALF.
  set (k := cN c - ces c - 1). set (h := cN c - 3 - ces c).
  assert (BH2 : 2 ^ (cH c - 2) = 2 ^ (cH c - k) * 2 ^ h) by (rewrite <- Z.pow_add_r by lia; f_equal; lia).
  assert (BHk : 2 ^ cH c = 2 ^ (cH c - k) * 2 ^ k) by (rewrite <- Z.pow_add_r by lia; f_equal; lia).
  assert (BH1 : 2 ^ (cH c - 1) = 2 * 2 ^ (cH c - 2))
    by (replace (cH c - 1) with ((cH c - 2) + 1) by lia; apply pow2_S; lia).
  pow_pos 2 h. pow_pos 2 k. pow_pos 2 (cH c - k).
  assert (D : cast (tU c) (-1) / 2 ^ k = 2 ^ (cH c - k) - 1).
  { assert (M : cast (tU c) (-1) = 2 ^ cH c - 1).
    { unfold tU. rewrite cast_u. symmetry. apply (Z.mod_unique _ _ (-1)); lia. }
    rewrite M. symmetry. apply (Z.div_unique _ _ _ (2 ^ k - 1)); [left; lia|]. rewrite BHk. ring. }
  rewrite D. unfold tS. 
  assert (L : 2 ^ (cH c - k) <= 2 ^ (cH c - 2)) by (apply Z.pow_le_mono_r; lia).
  rewrite (cast_s_small (cH c) (2 ^ (cH c - k) - 1)) by lia.
  replace ((2 ^ (cH c - k) - 1) * 2 ^ h) with (2 ^ (cH c - 2) - 2 ^ h) by (rewrite BH2; ring).
  assert (L2 : 2 ^ h <= 2 ^ (cH c - 2)) by (apply Z.pow_le_mono_r; lia).
  rewrite !(cast_s_small (cH c) (2 ^ (cH c - 2) - 2 ^ h)) by lia. reflexivity.
Qed.

Lemma onehalf_ok c : valid_cfg c -> cH c = cN c ->
  p_onehalf c = half_pattern c.
Proof. intros V E. rewrite onehalf_pat by assumption. unfold half_pattern. rewrite E. reflexivity. Qed.
Lemma onehalf_bad c : valid_cfg c -> cN c < cH c ->
  2 ^ (cN c - 2) < p_onehalf c /\ (real c (p_onehalf c) -> (1 < value c (p_onehalf c))%Q).
Proof.
  intros V L. vcb V. assert (A : 2 ^ (cN c - 2) < p_onehalf c).
  { rewrite onehalf_pat by assumption. destruct (pow_split c V) as [P1 P2].
    assert (2 ^ (cN c - 1) <= 2 ^ (cH c - 2)) by (apply Z.pow_le_mono_r; lia).
    assert (2 ^ (cN c - 3 - ces c) < 2 ^ (cN c - 2)) by (apply Z.pow_lt_mono_r; lia). lia. }
  split; [assumption|]. intros R. rewrite <- (one_value c V).
  pose proof (one_real c V) as OR. pose proof (real_bounds c BN Bes _ OR). pose proof (real_bounds c BN Bes _ R).
  apply (value_lt c BN Bes); lia.
Qed.
