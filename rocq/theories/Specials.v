(** Arithmetic with NaN, infinities and zero. *)
From Coq Require Import ZArith QArith Qabs Lia Lqa Bool List.
From Verif Require Import Res CInt Bits Traits Unpacked Cfg Posit Spec QPow Core SpecLemmas Arith
  DecodeProof EncodeProof UOps UAdd Ops OpsAdd OpsUnary OpsUnary2.
Open Scope Z_scope.

Lemma pack_inf c n e f : valid_cfg c -> pack_posit c (U Infinity n e f) = Ok (inf_of c n).
Proof.
  intros V. unfold pack_posit, unpacked_full2low, pack_low, inf_of. cbn [utyp uneg bind ltyp lneg ul_special].
  rewrite P_NINF_val, P_PINF_val, P_NAN_val by assumption.
  destruct (csp c); cbn [spec_eqb negb]; destruct n; reflexivity.
Qed.

Lemma pack_nan c n e f : valid_cfg c -> pack_posit c (U NaN n e f) = Ok (exceptional c).
Proof.
  intros V. unfold pack_posit, unpacked_full2low, pack_low, exceptional. cbn [utyp uneg bind ltyp lneg ul_special].
  rewrite P_PINF_val, P_NAN_val by assumption.
  destruct (csp c); cbn [spec_eqb negb]; reflexivity.
Qed.


Lemma pow_ge4 c : valid_cfg c -> 4 <= 2 ^ (cN c - 1).
Proof. intros V. vcb V. change 4 with (2 ^ 2). apply pow2_mono. lia. Qed.

Lemma inf_of_inf c i : valid_cfg c -> is_inf c i -> inf_of c (i <? 0) = i.
Proof.
  intros V. pose proof (pow_ge4 c V). unfold inf_of.
  intros [[S ->]|[[S ->]|[S ->]]]; rewrite S; [| |reflexivity].
  - destruct (Z.ltb_spec (2 ^ (cN c - 1) - 1) 0); [lia|reflexivity].
  - destruct (Z.ltb_spec (- 2 ^ (cN c - 1) + 1) 0); [reflexivity|lia].
Qed.

Lemma inf_nz c i : valid_cfg c -> is_inf c i -> i <> 0.
Proof. intros V. pose proof (pow_ge4 c V). intros [[S ->]|[[S ->]|[S ->]]]; lia. Qed.
Lemma nan_nz c i : valid_cfg c -> is_nan c i -> i <> 0.
Proof. intros V. pose proof (pow_ge4 c V). intros [S ->]. lia. Qed.

(** The type an operand unpacks to. *)
Lemma unpack_kind c v : valid_cfg c -> pattern c v ->
  (is_nan c v /\ unpack c v = Ok (u_special NaN false)) \/
  (is_inf c v /\ unpack c v = Ok (u_special Infinity (v <? 0))) \/
  (v = 0 /\ unpack c v = Ok (u_special Zero false)) \/
  (real c v /\ v <> 0 /\ exists e f, unpack c v = Ok (U Regular (v <? 0) e f) /\ 0 <= f < 2 ^ cF c /\
     - emax c <= e <= emax c).
Proof.
  intros V P. destruct (kind_of c v V P) as [R _ _|I _ _|I _ _].
  - destruct (Z.eq_dec v 0) as [->|NZ].
    + right; right; left. split; [reflexivity|]. apply unpack_zero; assumption.
    + right; right; right. split; [assumption|]. split; [assumption|].
      destruct (unpack_spec c v V R NZ) as [e [f [U1 [Hf [He EQ]]]]]. eauto 6.
  - left. split; [assumption|]. apply unpack_nan; assumption.
  - right; left. split; [assumption|]. apply unpack_inf; assumption.
Qed.

Lemma unpack_Ok c v : valid_cfg c -> pattern c v -> exists u, unpack c v = Ok u.
Proof.
  intros V P. destruct (unpack_kind c v V P) as [[_ E]|[[_ E]|[[_ E]|[_ [_ [e [f [E _]]]]]]]]; eauto.
Qed.

Lemma real_pattern c v : valid_cfg c -> real c v -> pattern c v.
Proof. intros V R. vcb V. pose proof (real_bounds c BN Bes v R). unfold pattern. lia. Qed.
Lemma inf_pattern c v : valid_cfg c -> is_inf c v -> pattern c v.
Proof. intros V. pose proof (pow_ge4 c V). unfold pattern. intros [[S ->]|[[S ->]|[S ->]]]; lia. Qed.
Lemma nan_pattern c v : valid_cfg c -> is_nan c v -> pattern c v.
Proof. intros V. pose proof (pow_ge4 c V). unfold pattern. intros [S ->]. lia. Qed.

Lemma unpack_reg c v : valid_cfg c -> real c v -> v <> 0 ->
  exists e f, unpack c v = Ok (U Regular (v <? 0) e f) /\ 0 <= f < 2 ^ cF c /\ - emax c <= e <= emax c.
Proof.
  intros V R NZ. destruct (unpack_spec c v V R NZ) as [e [f [U1 [Hf [He EQ]]]]]. eauto 6.
Qed.

Lemma nan_exc c a : is_nan c a -> a = exceptional c.
Proof. intros [_ E]. exact E. Qed.

Ltac opsp c a b Ea Eb := unfold p_mul, p_div; rewrite ?Ea; cbn [bind]; rewrite ?Eb; cbn [bind];
  unfold u_mul, u_div; cbn [u_isNaN utype_eqb utyp orb uneg uexp ufrac u_special u_zero u_nan bind].

(** ** NaN on the left *)
Lemma mul_nan_l c a b : valid_cfg c -> is_nan c a -> pattern c b -> p_mul c a b = Ok a.
Proof.
  intros V Na Pb. destruct (unpack_Ok c b V Pb) as [ub Eb]. pose proof (unpack_nan c a V Na) as Ea.
  opsp c a b Ea Eb. unfold u_special. rewrite pack_nan by assumption. f_equal. symmetry. apply nan_exc, Na.
Qed.
Lemma div_nan_l c a b : valid_cfg c -> is_nan c a -> pattern c b -> p_div c a b = Ok a.
Proof.
  intros V Na Pb. destruct (unpack_Ok c b V Pb) as [ub Eb]. pose proof (unpack_nan c a V Na) as Ea.
  opsp c a b Ea Eb. unfold u_special. rewrite pack_nan by assumption. f_equal. symmetry. apply nan_exc, Na.
Qed.
Lemma add_nan_l c a b : valid_cfg c -> is_nan c a -> pattern c b -> p_add c a b = Ok a.
Proof.
  intros V Na Pb. destruct (unpack_Ok c b V Pb) as [ub Eb]. pose proof (unpack_nan c a V Na) as Ea.
  pose proof (nan_nz c a V Na). destruct (Z.eq_dec b 0) as [->|Nb].
  - unfold p_add, iszero. destruct (Z.eqb_spec a 0); [lia|reflexivity].
  - rewrite p_add_unfold by assumption. rewrite Ea. cbn [bind]. rewrite Eb. cbn [bind].
    unfold u_add. cbn [u_isNaN utype_eqb utyp orb u_special]. cbn [bind].
    unfold u_special; rewrite pack_nan by assumption. f_equal. symmetry. apply nan_exc, Na.
Qed.

(** ** NaN on the right: the left operand comes back *)
Lemma pack_unpack_id c v u r : valid_cfg c -> exp_ok c -> frac_fits c -> pattern c v ->
  unpack c v = Ok u -> pack_posit c u = Ok r -> r = v.
Proof.
  intros V X FF P U1 PK. destruct (unpack_kind c v V P) as [[I E]|[[I E]|[[I E]|[R [NZ [e [f [E _]]]]]]]];
    rewrite E in U1; injection U1 as <-.
  - unfold u_special in PK. rewrite pack_nan in PK by assumption. injection PK as <-. symmetry. apply nan_exc, I.
  - unfold u_special in PK. rewrite pack_inf in PK by assumption. injection PK as <-. apply inf_of_inf; assumption.
  - cbn in PK. injection PK as <-. symmetry. assumption.
  - eapply pack_unpack; eassumption.
Qed.

Lemma pack_unpack_defined c v u : valid_cfg c -> exp_ok c -> roomy c -> pattern c v ->
  unpack c v = Ok u -> exists r, pack_posit c u = Ok r.
Proof.
  intros V X Rm P U1. destruct (unpack_kind c v V P) as [[I E]|[[I E]|[[I E]|[R [NZ [e [f [E [Hf _]]]]]]]]];
    rewrite E in U1; injection U1 as <-.
  - unfold u_special. rewrite pack_nan by assumption. eauto.
  - unfold u_special. rewrite pack_inf by assumption. eauto.
  - eexists. reflexivity.
  - apply pack_defined; assumption.
Qed.

Lemma mul_nan_r c a b r : valid_cfg c -> exp_ok c -> frac_fits c -> is_nan c b -> pattern c a ->
  p_mul c a b = Ok r -> r = a.
Proof.
  intros V X FF Nb Pa P. destruct (unpack_Ok c a V Pa) as [ua Ea]. pose proof (unpack_nan c b V Nb) as Eb.
  unfold p_mul in P. rewrite Ea in P. cbn [bind] in P. rewrite Eb in P. cbn [bind] in P. unfold u_mul in P.
  rewrite orb_true_r in P. cbn [bind] in P. eapply pack_unpack_id; eassumption.
Qed.
Lemma div_nan_r c a b r : valid_cfg c -> exp_ok c -> frac_fits c -> is_nan c b -> pattern c a ->
  p_div c a b = Ok r -> r = a.
Proof.
  intros V X FF Nb Pa P. destruct (unpack_Ok c a V Pa) as [ua Ea]. pose proof (unpack_nan c b V Nb) as Eb.
  unfold p_div in P. rewrite Ea in P. cbn [bind] in P. rewrite Eb in P. cbn [bind] in P. unfold u_div in P.
  rewrite orb_true_r in P. cbn [bind] in P. eapply pack_unpack_id; eassumption.
Qed.
Lemma add_nan_r c a b r : valid_cfg c -> exp_ok c -> frac_fits c -> is_nan c b -> pattern c a ->
  a <> 0 -> p_add c a b = Ok r -> r = a.
Proof.
  intros V X FF Nb Pa NZ P. destruct (unpack_Ok c a V Pa) as [ua Ea]. pose proof (unpack_nan c b V Nb) as Eb.
  rewrite p_add_unfold in P by (try assumption; eapply nan_nz; eassumption).
  rewrite Ea in P. cbn [bind] in P. rewrite Eb in P. cbn [bind] in P. unfold u_add in P.
  rewrite orb_true_r in P. cbn [bind] in P. eapply pack_unpack_id; eassumption.
Qed.

(** ** Infinities *)
Lemma mul_inf_l c i x : valid_cfg c -> is_inf c i -> real c x -> x <> 0 -> p_mul c i x = Ok (inf_of c (neg_sign i x)).
Proof.
  intros V I R NZ. destruct (unpack_reg c x V R NZ) as [e [f [Ex _]]]. pose proof (unpack_inf c i V I) as Ei.
  opsp c i x Ei Ex. unfold neg_sign. destruct (xorb _ _); cbn [bind]; unfold u_ninfinity, u_pinfinity, u_special;
    apply pack_inf; assumption.
Qed.
Lemma mul_inf_r c i x : valid_cfg c -> is_inf c i -> real c x -> x <> 0 -> p_mul c x i = Ok (inf_of c (neg_sign x i)).
Proof.
  intros V I R NZ. destruct (unpack_reg c x V R NZ) as [e [f [Ex _]]]. pose proof (unpack_inf c i V I) as Ei.
  opsp c x i Ex Ei. unfold neg_sign. destruct (xorb _ _); cbn [bind]; unfold u_ninfinity, u_pinfinity, u_special;
    apply pack_inf; assumption.
Qed.
Lemma mul_inf_inf c i j : valid_cfg c -> is_inf c i -> is_inf c j -> p_mul c i j = Ok (inf_of c (neg_sign i j)).
Proof.
  intros V I J. pose proof (unpack_inf c i V I) as Ei. pose proof (unpack_inf c j V J) as Ej.
  opsp c i j Ei Ej. unfold neg_sign. destruct (xorb _ _); cbn [bind]; unfold u_ninfinity, u_pinfinity, u_special;
    apply pack_inf; assumption.
Qed.
Lemma mul_inf_0 c i : valid_cfg c -> is_inf c i -> p_mul c i 0 = Ok (exceptional c) /\ p_mul c 0 i = Ok (exceptional c).
Proof.
  intros V I. pose proof (unpack_inf c i V I) as Ei. pose proof (unpack_zero c V) as E0.
  split; [opsp c i 0 Ei E0|opsp c 0 i E0 Ei]; apply pack_nan; assumption.
Qed.
Lemma add_inf_l c i x : valid_cfg c -> is_inf c i -> real c x -> p_add c i x = Ok i /\ p_add c x i = Ok i.
Proof.
  intros V I R. pose proof (inf_nz c i V I) as Ni. pose proof (unpack_inf c i V I) as Ei.
  destruct (Z.eq_dec x 0) as [->|NZ].
  - split; [|reflexivity]. unfold p_add, iszero. destruct (Z.eqb_spec i 0); [lia|reflexivity].
  - destruct (unpack_reg c x V R NZ) as [e [f [Ex _]]].
    rewrite !p_add_unfold by assumption. rewrite Ei, Ex. cbn [bind]. unfold u_add.
    cbn [u_isNaN utype_eqb utyp orb u_special bind]. unfold u_special. rewrite pack_inf by assumption.
    rewrite inf_of_inf by assumption. auto.
Qed.
Lemma add_inf_same c i : valid_cfg c -> is_inf c i -> p_add c i i = Ok i.
Proof.
  intros V I. pose proof (inf_nz c i V I) as Ni. pose proof (unpack_inf c i V I) as Ei.
  rewrite !p_add_unfold by assumption. rewrite Ei. cbn [bind]. unfold u_add.
  cbn [u_isNaN utype_eqb utyp orb u_special bind uneg]. rewrite eqb_reflx. cbn [bind].
  unfold u_special. rewrite pack_inf by assumption. rewrite inf_of_inf by assumption. auto.
Qed.
Lemma add_inf_opp c i j : valid_cfg c -> is_pinf c i -> is_ninf c j ->
  p_add c i j = Ok (exceptional c) /\ p_add c j i = Ok (exceptional c).
Proof.
  intros V I J. pose proof (pow_ge4 c V).
  assert (II : is_inf c i) by (left; assumption). assert (JJ : is_inf c j) by (right; left; assumption).
  pose proof (inf_nz c i V II) as Ni. pose proof (unpack_inf c i V II) as Ei.
  pose proof (inf_nz c j V JJ) as Nj. pose proof (unpack_inf c j V JJ) as Ej.
  rewrite !p_add_unfold by assumption. rewrite Ei, Ej. cbn [bind]. unfold u_add.
  cbn [u_isNaN utype_eqb utyp orb u_special bind uneg].
  destruct I as [_ ->]. destruct J as [_ ->].
  destruct (Z.ltb_spec (2 ^ (cN c - 1) - 1) 0); [lia|].
  destruct (Z.ltb_spec (- 2 ^ (cN c - 1) + 1) 0); [|lia]. cbn [Bool.eqb bind].
  unfold u_nan, u_special. rewrite pack_nan by assumption. auto.
Qed.
Lemma div_by_0 c x : valid_cfg c -> real c x -> x <> 0 -> p_div c x 0 = Ok (inf_of c (x <? 0)).
Proof.
  intros V R NZ. destruct (unpack_reg c x V R NZ) as [e [f [Ex _]]]. pose proof (unpack_zero c V) as E0.
  opsp c x 0 Ex E0. apply pack_inf; assumption.
Qed.
Lemma div_0_0 c : valid_cfg c -> p_div c 0 0 = Ok (exceptional c).
Proof. intros V. pose proof (unpack_zero c V) as E0. opsp c 0 0 E0 E0. apply pack_nan; assumption. Qed.
Lemma div_inf_inf c i j : valid_cfg c -> is_inf c i -> is_inf c j -> p_div c i j = Ok (exceptional c).
Proof.
  intros V I J. pose proof (unpack_inf c i V I) as Ei. pose proof (unpack_inf c j V J) as Ej.
  opsp c i j Ei Ej. apply pack_nan; assumption.
Qed.
Lemma div_inf_0 c i : valid_cfg c -> is_inf c i -> p_div c i 0 = Ok i.
Proof.
  intros V I. pose proof (unpack_inf c i V I) as Ei. pose proof (unpack_zero c V) as E0.
  opsp c i 0 Ei E0. unfold u_special. rewrite pack_inf by assumption. rewrite inf_of_inf by assumption. reflexivity.
Qed.
Lemma div_0_inf c i : valid_cfg c -> is_inf c i -> p_div c 0 i = Ok 0.
Proof.
  intros V I. pose proof (unpack_inf c i V I) as Ei. pose proof (unpack_zero c V) as E0.
  opsp c 0 i E0 Ei. reflexivity.
Qed.
Lemma div_inf_x c i x : valid_cfg c -> is_inf c i -> real c x -> x <> 0 -> p_div c i x = Ok (inf_of c (neg_sign i x)).
Proof.
  intros V I R NZ. destruct (unpack_reg c x V R NZ) as [e [f [Ex _]]]. pose proof (unpack_inf c i V I) as Ei.
  opsp c i x Ei Ex. unfold neg_sign. destruct (xorb _ _); cbn [bind]; unfold u_ninfinity, u_pinfinity, u_special;
    apply pack_inf; assumption.
Qed.
(** A finite number divided by an infinity is an infinity, not 0. *)
Lemma div_x_inf c i x : valid_cfg c -> is_inf c i -> real c x -> x <> 0 -> p_div c x i = Ok (inf_of c (neg_sign x i)).
Proof.
  intros V I R NZ. destruct (unpack_reg c x V R NZ) as [e [f [Ex _]]]. pose proof (unpack_inf c i V I) as Ei.
  opsp c x i Ex Ei. unfold neg_sign. destruct (xorb _ _); cbn [bind]; unfold u_ninfinity, u_pinfinity, u_special;
    apply pack_inf; assumption.
Qed.

(** ** Negation and absolute value of special values *)
Lemma neg_signed_inf c : valid_cfg c -> csp c = WithNanInf ->
  p_neg c (inf_of c false) = Ok (inf_of c true) /\ p_neg c (inf_of c true) = Ok (inf_of c false) /\
  p_abs c (inf_of c true) = Ok (inf_of c false) /\ p_abs c (inf_of c false) = Ok (inf_of c false).
Proof.
  intros V S. vcb V. pose proof (pow_ge4 c V) as P4. pose proof (pwH_bound c V) as PB. unfold inf_of. rewrite S.
  assert (NEG : forall x, - 2 ^ (cN c - 1) < x < 2 ^ (cN c - 1) -> p_neg c x = Ok (- x)).
  { intros x B. unfold p_neg, cneg, tS. rewrite arith_ps by (try apply (vc_H _ V); lia). cbn [bind].
    unfold deep, tS. rewrite cast_s_small by lia. reflexivity. }
  assert (ABS : forall x, - 2 ^ (cN c - 1) < x < 2 ^ (cN c - 1) -> p_abs c x = Ok (Z.abs x)).
  { intros x B. unfold p_abs, pcabs. destruct (Z.ltb_spec x 0).
    - unfold cneg, tS. rewrite arith_ps by (try apply (vc_H _ V); lia). cbn [bind].
      unfold deep, tS. rewrite !cast_s_small by (rewrite ?cast_s_small by lia; lia). f_equal. lia.
    - cbn [bind]. unfold deep, tS. rewrite cast_s_small by lia. f_equal. lia. }
  rewrite !NEG, !ABS by lia. repeat split; f_equal; lia.
Qed.

(** The pattern 10..0: negation gives it back only when the holder has exactly totalbits bits and
    is narrower than int. *)
Lemma neg_exceptional c : valid_cfg c ->
  p_neg c (exceptional c) =
    if cH c =? cN c then (if cH c <? 32 then Ok (exceptional c) else UB SignedOverflow)
    else Ok (2 ^ (cN c - 1)).
Proof.
  intros V. vcb V. pose proof (pow_ge4 c V) as P4. pose proof (pwH_bound c V) as PB.
  unfold p_neg, cneg, exceptional, tS, deep, tS. rewrite Z.opp_involutive.
  destruct (Z.eqb_spec (cH c) (cN c)) as [E|E].
  - rewrite <- E. destruct (vc_H _ V) as [W|[W|[W|W]]]; rewrite W; reflexivity.
  - assert (L : 2 ^ (cN c - 1) < 2 ^ (cH c - 1)) by (apply Z.pow_lt_mono_r; lia).
    rewrite arith_ps by (try apply (vc_H _ V); lia). cbn [bind]. rewrite cast_s_small by lia. reflexivity.
Qed.
Lemma abs_exceptional c : valid_cfg c -> p_abs c (exceptional c) = p_neg c (exceptional c).
Proof.
  intros V. pose proof (pow_ge4 c V) as P4. unfold p_abs, pcabs, p_neg, exceptional.
  destruct (Z.ltb_spec (- 2 ^ (cN c - 1)) 0); [|lia]. unfold tS. destruct (cneg _ _); [|reflexivity].
  cbn [bind]. f_equal. unfold deep, tS. clear. unfold cast. cbn [isg iw sint]. unfold wraps.
  set (w := cH c). destruct (Z_lt_le_dec w 0).
  - rewrite !Z.pow_neg_r by lia. rewrite !Zmod_0_r. lia.
  - pow_pos 2 w. f_equal. rewrite Z.sub_add. rewrite Z.mod_mod by lia. reflexivity.
Qed.
