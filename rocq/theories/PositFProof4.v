(** Products that the float holds exactly, and where float arithmetic differs from posit arithmetic. *)
From Coq Require Import ZArith QArith Qabs Qminmax Lia Lqa Bool.
From Verif Require Import Res CInt Bits Traits Unpacked Cfg Posit Spec SpecFloat FloatOps PositF QPow Core SpecLemmas Arith DecodeProof EncodeProof
  UOps UAdd Ops OpsAdd OpsUnary OpsUnary2 Specials Room Laws Configs Final1 Final2 Final3 Misc4 Conv1 Conv2 Conv3 Conv4 Conv5 TabProof5 FloatProof PositFProof PositFProof2 PositFProof3.
Open Scope Z_scope.

Lemma is_float_sgq eb fb (FO : fmt_ok eb fb) s x : is_float eb fb x -> is_float eb fb (sgq s x).
Proof. intros F. destruct s; cbn [sgq]; [apply is_float_opp; assumption|assumption]. Qed.

Section pf4.
Context (c : cfg) (k : fft) (rnd : fft -> Q -> Z).
Context (V : valid_cfg c) (HF : cF c = f_hold k) (FC : float_covers c (f_eb k) (f_fb k)) (ET : et_holds c (f_eb k))
  (RN : forall j, rounding (f_eb j) (f_fb j) (rnd j)).
Let eb := f_eb k.
Let fb := f_fb k.

Lemma product_float a b : products_fit c eb -> 2 * (cN c - 3 - ces c) + 1 <= fb -> real c a -> real c b ->
  is_float eb fb (value c a * value c b).
Proof using V HF FC ET.
  intros PF W Ra Rb. pose proof (k_fmt k) as FO. fold eb fb in FO. pose proof (k_hold c k HF) as FF.
  destruct (Z.eq_dec a 0) as [->|NA].
  { apply (is_float_comp eb fb 0); [change (value c 0) with 0%Q; ring|apply is_float_0; assumption]. }
  destruct (Z.eq_dec b 0) as [->|NB].
  { apply (is_float_comp eb fb 0); [change (value c 0) with 0%Q; ring|apply is_float_0; assumption]. }
  destruct (mul_range eb fb FO c V FC FF a b (strict2 c k V PF) Ra Rb) as [Z0|[_ IR]].
  { apply (is_float_comp eb fb 0); [symmetry; assumption|apply is_float_0; assumption]. }
  destruct (real_dy eb fb c V FC FF a Ra NA) as (n1 & e1 & m1 & E1 & M1 & B1 & _).
  destruct (real_dy eb fb c V FC FF b Rb NB) as (n2 & e2 & m2 & E2 & M2 & B2 & _).
  pose proof (gran_nonneg c ltac:(vcb V; assumption) ltac:(vcb V; assumption)) as G.
  assert (GV : gran c = cN c - 3 - ces c) by apply gran_val.
  assert (E : (value c a * value c b == sgq (xorb n1 n2) (dy (m1 * m2) ((e1 - gran c) + (e2 - gran c))))%Q).
  { rewrite E1, E2. unfold dy. destruct n1, n2; cbn [sgq xorb]; rewrite pow2_plus, inject_Z_mult; ring. }
  apply (is_float_comp eb fb (sgq (xorb n1 n2) (dy (m1 * m2) ((e1 - gran c) + (e2 - gran c))))); [symmetry; assumption|].
  assert (P1 : 0 < 2 ^ gran c) by (apply Z.pow_pos_nonneg; lia).
  assert (MM : 0 <= m1 * m2 < 2 ^ (fb + 1)).
  { split; [nia|]. apply Z.lt_le_trans with (2 ^ (gran c + 1) * 2 ^ (gran c + 1)); [nia|]. rewrite <- Z.pow_add_r by lia. apply Z.pow_le_mono_r; lia. }
  apply is_float_sgq; [assumption|]. apply is_float_dy; [assumption|assumption| |].
  - pose proof (strict2 c k V PF). fold eb in H. lia.
  - assert (A : (Qabs (value c a * value c b) == dy (m1 * m2) (e1 - gran c + (e2 - gran c)))%Q).
    { rewrite E. assert (0 <= dy (m1 * m2) (e1 - gran c + (e2 - gran c)))%Q.
      { unfold dy. apply Qmult_le_0_compat; [|apply Qlt_le_weak, pow2_pos]. change 0%Q with (inject_Z 0). rewrite <- Zle_Qle. lia. }
      destruct (xorb n1 n2); cbn [sgq]; [rewrite Qabs_opp|]; apply Qabs_pos; assumption. }
    rewrite <- A. eapply Qlt_trans; [exact IR|]. apply pow2_lt. lia.
Qed.

(** The class agrees with the generic template on products the float holds. *)
Lemma pf_mul_same a b : products_fit c eb -> 2 * (cN c - 3 - ces c) + 1 <= fb -> real c a -> real c b ->
  room c (value c a * value c b) -> pf_mul c k rnd a b = p_mul c a b.
Proof using V HF FC ET RN.
  intros PF W Ra Rb RM. pose proof (product_float a b PF W Ra Rb) as F. pose proof (pf_X c k V FC) as X.
  pose proof (k_hold c k HF) as FF. vcb V.
  assert (MF : mul_fits c).
  { unfold mul_fits. unfold fb in *. rewrite HF. destruct k; cbn [f_fb] in *; vm_compute (f_hold _); lia. }
  destruct (proj1 (mul_total c a b V X MF Ra Rb) RM) as (r & O & T).
  assert (Pa : pattern c a) by (apply real_pattern; assumption). assert (Pb : pattern c b) by (apply real_pattern; assumption).
  destruct (pf_mul_spec c k rnd V HF FC ET RN a b PF Pa Pb) as (s & O' & S).
  - rewrite !ext_of_real by assumption. cbn [x_mul fits]. right. split; assumption.
  - rewrite !ext_of_real in S by assumption. cbn [x_mul posit_for] in S. destruct S as [_ S]. specialize (S F).
    rewrite O, O'. f_equal. apply (rounds_tz_unique c BN Bes (value c a * value c b)%Q); assumption.
Qed.
End pf4.

Lemma real_float c k v : valid_cfg c -> cF c = f_hold k -> float_covers c (f_eb k) (f_fb k) -> et_holds c (f_eb k) -> real c v ->
  is_float (f_eb k) (f_fb k) (value c v).
Proof.
  intros V HF FC ET R. pose proof (k_hold c k HF) as FF.
  destruct (to_ext (f_eb k) (f_fb k) (k_fmt k) c V FC ET FF v (real_pattern c v V R)) as (b & _ & B & S & _).
  rewrite (ext_of_real c V v R) in S. destruct (ieee_val (f_eb k) (f_fb k) b) as [y|y|] eqn:E; cbn [same_ext] in S; try discriminate.
  exists b, y. repeat split; try lia; try assumption.
Qed.

(** epsilon() is the gap above one. *)
Lemma pf_epsilon_spec c k rnd : valid_cfg c -> cF c = f_hold k -> float_covers c (f_eb k) (f_fb k) -> et_holds c (f_eb k) ->
  (forall j, rounding (f_eb j) (f_fb j) (rnd j)) -> (csp c = WithNanInf -> cN c <> 3) ->
  exists eps n, pf_epsilon c k rnd = Ok eps /\ real c eps /\ (value c eps == pow2 (- (cN c - 3 - ces c)))%Q /\
    pf_next c (p_one c) = Ok n /\ real c n /\ (value c n == 1 + value c eps)%Q.
Proof.
  intros V HF FC ET RN N3. vcb V. pose proof (gran_nonneg c BN Bes) as G0. pose proof (covers_exp_ok c k V FC) as X.
  destruct (eps_pattern c V) as [p [Rp Vp]]. destruct (next_one c V N3) as [N1 [N2 N4]].
  pose proof (one_real c V) as R1. pose proof (one_value c V) as V1. set (n := 2 ^ (cN c - 2) + 1) in *.
  exists p, n.
  assert (VE : (value c n + - value c (2 ^ (cN c - 2)) == value c p)%Q) by (rewrite N4, V1, Vp; ring).
  assert (FE : is_float (f_eb k) (f_fb k) (value c n + - value c (2 ^ (cN c - 2)))).
  { apply (is_float_comp _ _ (value c p)); [symmetry; exact VE|]. apply real_float; assumption. }
  pose proof (pow_ge4 c V) as P4.
  destruct (pf_sub_spec c k rnd V HF FC ET RN n (2 ^ (cN c - 2)) (real_pattern c _ V N2) (real_pattern c _ V R1)) as (r & O & S).
  - unfold exceptional. pow_pos 2 (cN c - 2). lia.
  - intros _ _. rewrite !ext_of_real by assumption. cbn [x_opp x_add fits]. right. split; [exact FE|].
    right. exists (- gran c). split; [eapply scale_comp; [symmetry; rewrite VE; exact Vp|apply scale_pow2]|]. apply eps_room; try assumption. lia.
  - rewrite !ext_of_real in S by assumption. cbn [x_opp x_add posit_for] in S. destruct S as [_ S]. specialize (S FE).
    assert (r = p) as ->.
    { apply (rounds_tz_unique c BN Bes (value c n + - value c (2 ^ (cN c - 2)))%Q); [exact S|].
      apply (rounds_tz_comp c BN Bes (value c p)); [symmetry; exact VE|]. apply rounds_tz_exact; assumption. }
    split. { unfold pf_epsilon, pf_next. rewrite N1. cbn [bind]. rewrite one_val by assumption. exact O. }
    split; [exact Rp|]. rewrite gran_val in Vp at 1. split; [exact Vp|]. split; [exact N1|]. split; [exact N2|].
    rewrite N4, gran_val, Vp. reflexivity.
Qed.

(** Comparisons. *)
Lemma pf_order c a b : valid_cfg c -> real c a -> real c b ->
  (pf_lt a b = true <-> (value c a < value c b)%Q) /\
  (pf_le a b = true <-> (value c a <= value c b)%Q) /\
  (pf_gt a b = true <-> (value c a > value c b)%Q) /\
  (pf_ge a b = true <-> (value c a >= value c b)%Q) /\
  (pf_eq a b = true <-> (value c a == value c b)%Q) /\
  (pf_ne a b = true <-> ~ (value c a == value c b)%Q).
Proof.
  intros V Ra Rb. vcb V. pose proof (pow_ge4 c V) as P4.
  assert (A : - 2 ^ (cN c - 1) < a < 2 ^ (cN c - 1)) by (unfold real, maxreal in Ra; destruct (csp c); lia).
  assert (B : - 2 ^ (cN c - 1) < b < 2 ^ (cN c - 1)) by (unfold real, maxreal in Rb; destruct (csp c); lia).
  pose proof (value_lt c BN Bes a b) as L1. pose proof (value_lt c BN Bes b a) as L2.
  unfold pf_lt, pf_le, pf_gt, pf_ge, pf_eq, pf_ne. rewrite Z.gtb_ltb, Z.geb_leb.
  destruct (Z_lt_le_dec a b) as [L|L]; [|destruct (Z.eq_dec a b) as [->|N]].
  - assert (Q : (value c a < value c b)%Q) by (apply L1; lia).
    destruct (Z.ltb_spec a b), (Z.leb_spec a b), (Z.ltb_spec b a), (Z.leb_spec b a), (Z.eqb_spec a b); try lia. cbn [negb].
    repeat split; intros; try congruence; try lra; intro; lra.
  - destruct (Z.ltb_spec b b), (Z.leb_spec b b), (Z.eqb_spec b b); try lia. cbn [negb].
    repeat split; intros; try congruence; try lra; try reflexivity.
  - assert (Q : (value c b < value c a)%Q) by (apply L2; lia).
    destruct (Z.ltb_spec a b), (Z.leb_spec a b), (Z.ltb_spec b a), (Z.leb_spec b a), (Z.eqb_spec a b); try lia. cbn [negb].
    repeat split; intros; try congruence; try lra; intro; lra.
Qed.
Lemma pf_minmax c a b : valid_cfg c -> real c a -> real c b ->
  (value c (pf_stdmin a b) == Qmin (value c a) (value c b))%Q /\
  (value c (pf_stdmax a b) == Qmax (value c a) (value c b))%Q.
Proof.
  intros V Ra Rb. destruct (pf_order c a b V Ra Rb) as (_ & LE & _ & GE & _). unfold pf_stdmin, pf_stdmax. split.
  - destruct (pf_le a b); [assert (H : (value c a <= value c b)%Q) by (apply LE; reflexivity); rewrite Q.min_l by exact H; reflexivity|].
    assert (H : (value c b <= value c a)%Q) by (destruct (Qlt_le_dec (value c a) (value c b)) as [L|L]; [exfalso; assert (false = true) by (apply LE; lra); discriminate|exact L]).
    rewrite Q.min_r by exact H. reflexivity.
  - destruct (pf_ge a b); [assert (H : (value c a >= value c b)%Q) by (apply GE; reflexivity); rewrite Q.max_l by exact H; reflexivity|].
    assert (H : (value c a <= value c b)%Q) by (destruct (Qlt_le_dec (value c b) (value c a)) as [L|L]; [exfalso; assert (false = true) by (apply GE; lra); discriminate|exact L]).
    rewrite Q.max_r by exact H. reflexivity.
Qed.
(** NaN compares as a number below all others. *)
Lemma pf_order_nan c b : valid_cfg c -> real c b ->
  pf_eq (exceptional c) (exceptional c) = true /\ pf_le (exceptional c) (exceptional c) = true /\ pf_lt (exceptional c) b = true.
Proof.
  intros V Rb. unfold pf_eq, pf_le, pf_lt, exceptional. rewrite Z.eqb_refl, Z.leb_refl. repeat split.
  apply Z.ltb_lt. pose proof (pow_ge4 c V). unfold real, maxreal in Rb. destruct (csp c); lia.
Qed.
(** isinfinity. *)
Lemma pf_isinf c v : valid_cfg c -> csp c <> WithNan -> (pf_isinfinity c v = true <-> is_inf c v).
Proof.
  intros V NW. vcb V. unfold pf_isinfinity, P_PINF, P_NINF, is_naninf, is_inf, is_pinf, is_ninf, is_uinf. rewrite TOP_val, TOPRIGHT_val, TOPLEFT_val by assumption.
  rewrite orb_true_iff. destruct (csp c); cbn [spec_eqb]; rewrite !Z.eqb_eq; intuition congruence.
Qed.
Lemma pf_isinf_nan c : valid_cfg c -> csp c = WithNan -> is_nan c (exceptional c) /\ pf_isinfinity c (exceptional c) = true /\ forall v, ~ is_inf c v.
Proof.
  intros V W. unfold pf_isinfinity, P_PINF, P_NINF, is_naninf. rewrite TOP_val by assumption. rewrite W. cbn [spec_eqb].
  split; [split; [congruence|reflexivity]|]. split; [unfold exceptional; rewrite Z.eqb_refl; reflexivity|].
  intros v. unfold is_inf, is_pinf, is_ninf, is_uinf. rewrite W. intuition congruence.
Qed.

(** Round to nearest even in both types. *)
Definition rnek (k : fft) : Q -> Z := rne (f_eb k) (f_fb k).
Lemma rnek_rounding j : rounding (f_eb j) (f_fb j) (rnek j).
Proof. apply rne_rounding, k_fmt. Qed.

(** Where it differs: overflow of the float, double rounding, a - NaN. *)
Lemma pf_mul_overflow : exists c a, valid_cfg c /\ cF c = f_hold FFloat /\ float_covers c 8 23 /\ et_holds c 8 /\ real c a /\
  pf_mul c FFloat rnek a a = Ok (exceptional c) /\ is_nan c (exceptional c) /\ p_mul c a a = Ok a.
Proof.
  exists (Cfg 16 16 3 32 WithNan), 32767. split; [cfg_tac|]. split; [reflexivity|]. split; [vm_compute; split; congruence|].
  split; [right; left; reflexivity|]. split; [vm_compute; split; congruence|]. split; [vm_compute; reflexivity|]. split; [split; [discriminate|reflexivity]|vm_compute; reflexivity].
Qed.
Lemma pf_mul_double : exists c a b r s, valid_cfg c /\ cF c = f_hold FDouble /\ float_covers c 11 52 /\ products_fit c 11 /\ real c a /\ real c b /\
  pf_mul c FDouble rnek a b = Ok r /\ p_mul c a b = Ok s /\ rounds_tz c (value c a * value c b) s /\ ~ rounds_tz c (value c a * value c b) r.
Proof.
  set (c := Cfg 32 32 2 64 WithNan). assert (V : valid_cfg c) by cfg_tac. pose proof V as V'. vcb V'.
  exists c, 1073741825, 1073741822, 1073741824, 1073741823. split; [exact V|]. split; [reflexivity|]. split; [vm_compute; split; congruence|]. split; [vm_compute; congruence|].
  assert (R1 : real c 1073741825) by (vm_compute; split; congruence). assert (R2 : real c 1073741822) by (vm_compute; split; congruence).
  split; [exact R1|]. split; [exact R2|]. split; [vm_compute; reflexivity|]. split; [vm_compute; reflexivity|].
  assert (T : rounds_tz c (value c 1073741825 * value c 1073741822) 1073741823).
  { destruct (proj1 (mul_total c 1073741825 1073741822 V ltac:(vm_compute; congruence) ltac:(vm_compute; congruence) R1 R2)) as (s & O & S).
    - assert (SC : scale (value c 1073741825 * value c 1073741822) (-1)) by (vm_compute; split; congruence).
      right. exists (-1). split; [exact SC|vm_compute; congruence].
    - assert (O' : p_mul c 1073741825 1073741822 = Ok 1073741823) by (vm_compute; reflexivity). congruence. }
  split; [exact T|]. intros T'. pose proof (rounds_tz_unique c BN Bes _ _ _ T T'). discriminate.
Qed.
Lemma pf_sub_nan : exists c a, valid_cfg c /\ cF c = f_hold FFloat /\ float_covers c 8 23 /\ real c a /\ is_nan c (exceptional c) /\
  pf_sub c FFloat rnek a (exceptional c) = UB ShiftNeg /\ pf_sub c FFloat rnek 0 (exceptional c) = Ok (2 ^ (cN c - 1)) /\ ~ pattern c (2 ^ (cN c - 1)).
Proof.
  exists (Cfg 16 10 1 32 WithNan), 100. split; [cfg_tac|]. split; [reflexivity|]. split; [vm_compute; split; congruence|].
  split; [vm_compute; split; congruence|]. split; [split; [discriminate|reflexivity]|]. split; [vm_compute; reflexivity|]. split; [vm_compute; reflexivity|].
  vm_compute. intros [A B]. congruence.
Qed.

(** PositF<int8_t,8,0,float>. *)
Definition p8w : cfg := Cfg 8 8 0 32 WithNan.
Lemma valid_p8w : valid_cfg p8w. Proof. cfg_tac. Qed.
