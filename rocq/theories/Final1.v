(** Property-level lemmas: decoding, classification, order, negation, packing. *)
From Coq Require Import ZArith QArith Qabs Lia Lqa Bool List.
From Verif Require Import Res CInt Bits Traits Unpacked Cfg Posit Spec QPow Core SpecLemmas Arith
  DecodeProof EncodeProof UOps UAdd Ops OpsAdd OpsUnary OpsUnary2 Specials Room Laws Configs.
Open Scope Z_scope.

Lemma uvalue_uval F n e f : 0 <= F -> (uvalue F n e f == uval F n e f)%Q.
Proof.
  intros HF. assert (A : (pow2 e * (1 + inject_Z f / pow2 F) == uabs F e f)%Q).
  { unfold uabs, dy. rewrite inject_Z_plus.
    assert (E : (inject_Z (2 ^ F) == pow2 F)%Q) by (symmetry; apply pow2_Z; assumption).
    rewrite E. assert (E2 : (pow2 e == pow2 (e - F) * pow2 F)%Q).
    { rewrite <- pow2_plus. replace (e - F + F) with e by lia. reflexivity. }
    rewrite E2. field. apply pow2_nz. }
  unfold uvalue, uval. destruct n; rewrite <- A; ring.
Qed.

Lemma decode_value c v : valid_cfg c -> frac_fits c -> real c v -> v <> 0 ->
  exists neg e f, unpack c v = Ok (U Regular neg e f) /\ 0 <= f < 2 ^ cF c /\
    (value c v == uvalue (cF c) neg e f)%Q.
Proof.
  intros V FF R NZ. vcb V. unfold frac_fits in FF.
  destruct (unpack_real c v 0 V ltac:(lia)) as [e [f [U1 [Hf [He [_ Vv]]]]]]; try assumption; [rewrite gran_val; lia|].
  exists (v <? 0), e, f. split; [assumption|]. split; [assumption|]. rewrite uvalue_uval by lia. assumption.
Qed.

Lemma lval_fine g F y : 0 <= F -> F <= g -> (lval g (y * 2 ^ (g - F)) == lval F y)%Q.
Proof. intros. replace g with (F + (g - F)) at 1 by lia. apply lval_refine; lia. Qed.

(** Decoding into a fraction type that is too narrow drops low fraction bits. *)
Lemma decode_trunc c v : valid_cfg c -> real c v -> v <> 0 ->
  exists e f, unpack c v = Ok (U Regular (v <? 0) e f) /\ 0 <= f < 2 ^ cF c /\
    (Qabs (uvalue (cF c) (v <? 0) e f) <= Qabs (value c v))%Q /\
    (Qabs (value c v) < Qabs (uvalue (cF c) (v <? 0) e (f + 1)))%Q.
Proof.
  intros V R NZ. vcb V. pose proof (gran_nonneg c BN Bes) as G. pose proof (real_bounds c BN Bes v R) as RB.
  destruct (unpack_spec c v V R NZ) as [e [f [U1 [Hf [He EQ]]]]].
  exists e, f. split; [assumption|]. split; [assumption|].
  assert (VA : (Qabs (value c v) == lval (gran c) (pdec (cN c) (Z.abs v)))%Q).
  { rewrite <- (value_pos_lval c BN Bes) by lia.
    pose proof (value_pos c BN Bes (Z.abs v) ltac:(lia)) as VP.
    destruct (Z_lt_le_dec v 0).
    - replace (Z.abs v) with (- v) in * by lia. rewrite vopp in *. rewrite Qabs_neg by lra. reflexivity.
    - replace (Z.abs v) with v in * by lia. apply Qabs_pos. lra. }
  assert (UA : forall g, 0 <= g -> (Qabs (uvalue (cF c) (v <? 0) e g) == uabs (cF c) e g)%Q).
  { intros g Hg. rewrite uvalue_uval, uval_abs by lia. apply sgq_abs. apply Qlt_le_weak, uabs_pos; lia. }
  rewrite VA, !UA by lia. set (y := pdec (cN c) (Z.abs v)) in *. set (F := cF c) in *.
  pow_pos 2 F. pow_pos 2 (gran c).
  assert (D1 : (e * 2 ^ F + f) * 2 ^ gran c <= y * 2 ^ F) by (rewrite EQ; pose proof (Z.mul_div_le (y * 2 ^ F) (2 ^ gran c) ltac:(lia)); lia).
  assert (D2 : y * 2 ^ F < (e * 2 ^ F + f + 1) * 2 ^ gran c).
  { rewrite EQ. pose proof (Z.mul_succ_div_gt (y * 2 ^ F) (2 ^ gran c) ltac:(lia)). lia. }
  assert (L1 : (uabs F e f == lval (F + gran c) ((e * 2 ^ F + f) * 2 ^ gran c))%Q).
  { rewrite lval_refine by lia. unfold uabs. apply dy_lval. assumption. }
  assert (L2 : (lval (gran c) y == lval (F + gran c) (y * 2 ^ F))%Q).
  { rewrite Z.add_comm. rewrite lval_refine by lia. reflexivity. }
  assert (L3 : (uabs F e (f + 1) == lval (F + gran c) ((e * 2 ^ F + f + 1) * 2 ^ gran c))%Q).
  { rewrite lval_refine by lia. destruct (Z.eq_dec (f + 1) (2 ^ F)) as [E1|E1].
    - unfold uabs. rewrite <- Z.add_assoc, E1. replace (e * 2 ^ F + 2 ^ F) with ((e + 1) * 2 ^ F) by ring.
      rewrite lval_pow2 by lia. replace (2 ^ F + 2 ^ F) with (1 * 2 ^ (F + 1)) by (rewrite pow2_S by lia; ring).
      rewrite dy_pow by lia. unfold dy. replace (e - F + (F + 1)) with (e + 1) by lia. ring.
    - unfold uabs. rewrite <- Z.add_assoc. apply dy_lval. lia. }
  rewrite L1, L2, L3. split; [apply lval_le|apply lval_lt]; lia.
Qed.

Lemma classify c v : valid_cfg c -> pattern c v ->
  (v = 0 /\ unpack c v = Ok (U Zero false 0 0)) \/
  (is_nan c v /\ unpack c v = Ok (U NaN false 0 0)) \/
  (is_inf c v /\ unpack c v = Ok (U Infinity (v <? 0) 0 0)) \/
  (real c v /\ v <> 0 /\ exists e f, unpack c v = Ok (U Regular (v <? 0) e f)).
Proof.
  intros V P. destruct (unpack_kind c v V P) as [[I E]|[[I E]|[[I E]|[R [NZ [e [f [E _]]]]]]]].
  - right; left. auto.
  - right; right; left. auto.
  - left. auto.
  - right; right; right. eauto.
Qed.

Lemma kinds_disjoint c v : valid_cfg c ->
  ~ (is_nan c v /\ is_inf c v) /\ ~ (is_nan c v /\ real c v) /\ ~ (is_inf c v /\ real c v) /\
  ~ (is_pinf c v /\ is_ninf c v).
Proof.
  intros V. pose proof (pow_ge4 c V). unfold is_nan, is_inf, is_pinf, is_ninf, is_uinf, real, maxreal.
  destruct (csp c); repeat split; intros [A B]; intuition (try congruence; try lia).
Qed.

Lemma pack_specials c n e f : valid_cfg c ->
  pack_posit c (U Zero n e f) = Ok 0 /\
  pack_posit c (U NaN n e f) = Ok (exceptional c) /\
  pack_posit c (U Infinity n e f) = Ok (inf_of c n).
Proof.
  intros V. split; [reflexivity|]. split; [apply pack_nan, V|apply pack_inf, V].
Qed.

Lemma room_real c v : valid_cfg c -> exp_ok c -> frac_fits c -> real c v -> v <> 0 -> forall n e f,
  unpack c v = Ok (U Regular n e f) -> room c (value c v) <-> exists r, pack_posit c (U Regular n e f) = Ok r.
Proof.
  intros V X FF R NZ n e f E. vcb V. unfold frac_fits in FF.
  destruct (unpack_real c v 0 V ltac:(lia)) as [e' [f' [U1 [Hf [He [_ Vv]]]]]]; try assumption; [rewrite gran_val; lia|].
  rewrite E in U1. injection U1 as -> <- <-. rewrite pack_room_defined by assumption.
  apply room_iff. eapply scale_comp; [symmetry; exact Vv|]. apply uval_scale; lia.
Qed.

Lemma roundtrip c v : valid_cfg c -> exp_ok c -> frac_fits c -> pattern c v ->
  exists u, unpack c v = Ok u /\ (forall r, pack_posit c u = Ok r -> r = v) /\
    (~ real c v \/ room c (value c v) -> pack_posit c u = Ok v).
Proof.
  intros V X FF P. destruct (unpack_Ok c v V P) as [u E]. exists u. split; [assumption|].
  assert (ID : forall r, pack_posit c u = Ok r -> r = v) by (intros; eapply pack_unpack_id; eassumption).
  split; [assumption|]. intros C.
  assert (D : exists r, pack_posit c u = Ok r).
  { destruct (unpack_kind c v V P) as [[I E']|[[I E']|[[I E']|[R [NZ [e [f [E' _]]]]]]]];
      rewrite E in E'; injection E' as ->.
    - eexists. unfold u_special. apply pack_nan, V.
    - eexists. unfold u_special. apply pack_inf, V.
    - eexists. reflexivity.
    - destruct C as [C|C]; [contradiction|]. eapply room_real; eassumption. }
  destruct D as [r D]. rewrite D, (ID r D). reflexivity.
Qed.

(** ** Comparisons *)
Lemma nan_any_false c a b : valid_cfg c -> ~ is_nan c a -> ~ is_nan c b -> nan_any c a b = false.
Proof.
  intros V A B. unfold nan_any. destruct (isNaN c a) eqn:Ea; [apply isNaN_spec in Ea; [contradiction|assumption]|].
  destruct (isNaN c b) eqn:Eb; [apply isNaN_spec in Eb; [contradiction|assumption]|]. apply andb_false_r.
Qed.
Lemma nan_any_true c a b : valid_cfg c -> is_nan c a \/ is_nan c b -> nan_any c a b = true.
Proof.
  intros V H. unfold nan_any.
  assert (W : withnan c = true).
  { unfold withnan. destruct H as [[S _]|[S _]]; destruct (csp c); cbn; congruence. }
  rewrite W. destruct H as [H|H]; apply isNaN_spec in H; try assumption; rewrite H; cbn; [reflexivity|apply orb_true_r].
Qed.

Lemma compare_real c a b : valid_cfg c -> real c a -> real c b ->
  (p_lt c a b = true <-> (value c a < value c b)%Q) /\
  (p_le c a b = true <-> (value c a <= value c b)%Q) /\
  (p_gt c a b = true <-> (value c a > value c b)%Q) /\
  (p_ge c a b = true <-> (value c a >= value c b)%Q) /\
  (p_eq c a b = true <-> (value c a == value c b)%Q) /\
  (p_ne c a b = true <-> ~ (value c a == value c b)%Q).
Proof.
  intros V Ra Rb. vcb V. pose proof (real_bounds c BN Bes a Ra) as A. pose proof (real_bounds c BN Bes b Rb) as B.
  destruct (real_nn c a V Ra) as [_ Na]. destruct (real_nn c b V Rb) as [_ Nb].
  assert (LT : forall x y, - 2 ^ (cN c - 1) < x < 2 ^ (cN c - 1) -> - 2 ^ (cN c - 1) < y < 2 ^ (cN c - 1) ->
    x < y <-> (value c x < value c y)%Q).
  { intros x y Bx By. split; [intros; apply (value_lt c BN Bes); lia|apply (value_lt_inv c BN Bes); lia]. }
  assert (LE : forall x y, - 2 ^ (cN c - 1) < x < 2 ^ (cN c - 1) -> - 2 ^ (cN c - 1) < y < 2 ^ (cN c - 1) ->
    x <= y <-> (value c x <= value c y)%Q).
  { intros x y Bx By. split; [intros; apply (value_le c BN Bes); lia|apply (value_le_inv c BN Bes); lia]. }
  assert (EQ : a = b <-> (value c a == value c b)%Q).
  { split; [intros ->; reflexivity|apply (value_inj c BN Bes); lia]. }
  unfold p_ne, p_lt, p_le, p_gt, p_ge, p_eq. rewrite nan_any_false by assumption.
  rewrite Z.ltb_lt, Z.leb_le, Z.gtb_lt, Z.geb_le, Z.eqb_eq, negb_true_iff, Z.eqb_neq.
  rewrite (LT a b), (LE a b), (LT b a), (LE b a), EQ by assumption. unfold Qle. intuition.
Qed.

Lemma compare_nan c a b : valid_cfg c -> is_nan c a \/ is_nan c b ->
  p_lt c a b = false /\ p_le c a b = false /\ p_gt c a b = false /\ p_ge c a b = false /\
  p_eq c a b = false /\ p_ne c a b = true.
Proof.
  intros V H. unfold p_ne, p_lt, p_le, p_gt, p_ge, p_eq. rewrite nan_any_true by assumption. repeat split.
Qed.

Lemma compare_inf c x i j : valid_cfg c -> real c x -> is_pinf c i -> is_ninf c j ->
  p_lt c x i = true /\ p_gt c i x = true /\ p_lt c j x = true /\ p_gt c x j = true /\
  p_lt c j i = true /\ p_eq c x i = false /\ p_eq c x j = false.
Proof.
  intros V R I J. destruct (real_nn c x V R) as [_ Nx].
  destruct (kinds_disjoint c i V) as [D1 _]. destruct (kinds_disjoint c j V) as [D2 _].
  assert (Ni : ~ is_nan c i) by (intros N; apply D1; split; [assumption|left; assumption]).
  assert (Nj : ~ is_nan c j) by (intros N; apply D2; split; [assumption|right; left; assumption]).
  unfold p_lt, p_gt, p_eq. rewrite !nan_any_false by assumption.
  destruct I as [SP ->], J as [_ ->]. unfold real, maxreal in R. rewrite SP in R. pose proof (pow_ge4 c V).
  rewrite !Z.gtb_ltb. repeat split; try (apply Z.ltb_lt; lia); apply Z.eqb_neq; lia.
Qed.

(** ** Negation *)
Lemma neg_real c v : valid_cfg c -> real c v ->
  exists r, p_neg c v = Ok r /\ real c r /\ (value c r == - value c v)%Q /\ p_neg c r = Ok v.
Proof.
  intros V R. exists (- v). pose proof (ropp c v R) as R'. split; [apply p_neg_real; assumption|].
  split; [assumption|]. split; [apply vopp|]. rewrite p_neg_real by assumption. f_equal. lia.
Qed.
Lemma abs_real c v : valid_cfg c -> real c v ->
  exists r, p_abs c v = Ok r /\ real c r /\ (value c r == Qabs (value c v))%Q.
Proof.
  intros V R. exists (Z.abs v). split; [apply p_abs_real; assumption|]. split; [unfold real in *; lia|].
  destruct (value_sign c v V R) as [N P]. destruct (Z_lt_le_dec v 0) as [L|L].
  - replace (Z.abs v) with (- v) by lia. rewrite vopp, Qabs_neg; [reflexivity|].
    apply N in L. lra.
  - replace (Z.abs v) with v by lia. rewrite Qabs_pos; [reflexivity|].
    destruct (Z.eq_dec v 0) as [->|]; [rewrite v0; apply Qle_refl|].
    apply Qlt_le_weak. apply P. lia.
Qed.

(** ** Packing *)
Lemma pack_value c neg e f r : valid_cfg c -> exp_ok c -> 0 <= f < 2 ^ cF c ->
  pack_posit c (U Regular neg e f) = Ok r -> rounds_tz c (uvalue (cF c) neg e f) r.
Proof.
  intros V X Hf P. vcb V. pose proof (gran_nonneg c BN Bes) as G.
  eapply rounds_tz_comp; try assumption; [symmetry; etransitivity; [apply uvalue_uval; lia|apply uval_abs]|].
  destruct (Z_le_gt_dec (gran c) (cF c)) as [L|L].
  - eapply (cell_rounds c neg e f 0); try eassumption; [lia|].
    split; [assumption|]. split; [lia|]. split; [apply Z.mod_1_r|]. split; [apply Qle_refl|].
    unfold uabs. apply dy_lt. change (2 ^ 0) with 1. lia.
  - assert (Y : ycoord c e f = (e * 2 ^ cF c + f) * 2 ^ (gran c - cF c)).
    { unfold ycoord. pow_pos 2 (cF c).
      replace (2 ^ gran c) with (2 ^ (gran c - cF c) * 2 ^ cF c) by (rewrite <- Z.pow_add_r by lia; f_equal; lia).
      rewrite Z.mul_assoc. apply Z.div_mul. lia. }
    assert (E : (lval (gran c) (ycoord c e f) == uabs (cF c) e f)%Q).
    { rewrite Y, lval_fine by lia. unfold uabs. symmetry. apply dy_lval. assumption. }
    eapply pack_rounds; try eassumption.
    + rewrite E. apply Qle_refl.
    + rewrite <- E. apply lval_lt; lia.
Qed.

Lemma pack_total c neg e f : valid_cfg c -> exp_ok c -> 0 <= f < 2 ^ cF c ->
  (pack_room c e -> exists r, pack_posit c (U Regular neg e f) = Ok r /\ rounds_tz c (uvalue (cF c) neg e f) r) /\
  (~ pack_room c e -> pack_posit c (U Regular neg e f) = UB ShiftCount).
Proof.
  intros V X Hf. split; intros R.
  - apply (pack_room_defined c neg e f V X Hf) in R. destruct R as [r E]. exists r. split; [assumption|].
    eapply pack_value; eassumption.
  - apply pack_no_room; assumption.
Qed.

Lemma pack_mono c n1 e1 f1 n2 e2 f2 r1 r2 : valid_cfg c -> exp_ok c ->
  0 <= f1 < 2 ^ cF c -> 0 <= f2 < 2 ^ cF c ->
  (uvalue (cF c) n1 e1 f1 <= uvalue (cF c) n2 e2 f2)%Q ->
  pack_posit c (U Regular n1 e1 f1) = Ok r1 -> pack_posit c (U Regular n2 e2 f2) = Ok r2 ->
  p_le c r1 r2 = true /\ (value c r1 <= value c r2)%Q.
Proof.
  intros V X H1 H2 L P1 P2. pose proof (pack_value c n1 e1 f1 r1 V X H1 P1) as A.
  pose proof (pack_value c n2 e2 f2 r2 V X H2 P2) as B. vcb V.
  assert (LE : r1 <= r2) by (eapply rounds_tz_mono; eassumption).
  assert (R1 : real c r1) by (eapply rounds_tz_real; eassumption).
  assert (R2 : real c r2) by (eapply rounds_tz_real; eassumption).
  assert (VL : (value c r1 <= value c r2)%Q) by (apply real_value_le; assumption).
  split; [|assumption]. apply compare_real; assumption.
Qed.

Lemma pack_fixed c neg e f v r : valid_cfg c -> exp_ok c -> 0 <= f < 2 ^ cF c -> real c v ->
  (uvalue (cF c) neg e f == value c v)%Q -> pack_posit c (U Regular neg e f) = Ok r -> r = v.
Proof.
  intros V X Hf R E P. vcb V. apply (rounds_tz_unique c BN Bes (value c v)); [|apply rounds_tz_exact; assumption].
  eapply rounds_tz_comp; try assumption; [exact E|]. eapply pack_value; eassumption.
Qed.

Lemma value_injective c a b : valid_cfg c -> real c a -> real c b -> (value c a == value c b)%Q -> a = b.
Proof.
  intros V Ra Rb E. vcb V. pose proof (real_bounds c BN Bes _ Ra). pose proof (real_bounds c BN Bes _ Rb).
  apply (value_inj c BN Bes); try assumption; lia.
Qed.
Lemma special_sign c :
  valid_cfg c ->
  (csp c = WithNanInf ->
    p_neg c (inf_of c false) = Ok (inf_of c true) /\ p_neg c (inf_of c true) = Ok (inf_of c false) /\
    p_abs c (inf_of c true) = Ok (inf_of c false) /\ p_abs c (inf_of c false) = Ok (inf_of c false)) /\
  (cH c = cN c -> cH c < 32 ->
    p_neg c (exceptional c) = Ok (exceptional c) /\ p_abs c (exceptional c) = Ok (exceptional c)) /\
  (cH c = cN c -> 32 <= cH c ->
    p_neg c (exceptional c) = UB SignedOverflow /\ p_abs c (exceptional c) = UB SignedOverflow) /\
  (cN c < cH c ->
    p_neg c (exceptional c) = Ok (2 ^ (cN c - 1)) /\ p_abs c (exceptional c) = Ok (2 ^ (cN c - 1)) /\
    ~ pattern c (2 ^ (cN c - 1))).
Proof.
  intros V. split; [intros S; apply neg_signed_inf; assumption|].
  rewrite abs_exceptional, neg_exceptional by assumption.
  split; [|split]; intros E.
  - intros L. rewrite E, Z.eqb_refl. rewrite E in L. destruct (Z.ltb_spec (cN c) 32); [auto|lia].
  - intros L. rewrite E, Z.eqb_refl. rewrite E in L. destruct (Z.ltb_spec (cN c) 32); [lia|auto].
  - destruct (Z.eqb_spec (cH c) (cN c)); [lia|]. split; [reflexivity|]. split; [reflexivity|]. unfold pattern. lia.
Qed.
Lemma special_sign_refuted :
  exists c, valid_cfg c /\ is_nan c (exceptional c) /\
    ~ (exists r, p_neg c (exceptional c) = Ok r /\ is_nan c r) /\
    ~ (exists r, p_abs c (exceptional c) = Ok r /\ is_nan c r).
Proof.
  exists p16_32. split; [exact valid_p16_32|]. split; [split; [discriminate|reflexivity]|].
  split; intros [r [E [_ N]]]; vm_compute in E; injection E as <-; discriminate.
Qed.
Lemma pack_defined c neg e f :
  valid_cfg c -> exp_ok c -> 0 <= f < 2 ^ cF c ->
  (pack_room c e -> exists r, pack_posit c (U Regular neg e f) = Ok r) /\
  (~ pack_room c e -> pack_posit c (U Regular neg e f) = UB ShiftCount) /\
  (roomy c -> pack_room c e).
Proof.
  intros V X Hf. destruct (pack_total c neg e f V X Hf) as [A B]. split; [|split; [assumption|]].
  - intros R. destruct (A R) as [r [E _]]. eauto.
  - intros R. apply roomy_pack_room; assumption.
Qed.
Lemma pack_undefined :
  exists c e f, valid_cfg c /\ exp_ok c /\ 0 <= f < 2 ^ cF c /\
    pack_posit c (U Regular false e f) = UB ShiftCount.
Proof.
  exists p32, 108, 0. split; [exact valid_p32|]. split; [exact exp_p32|]. split; [split; [discriminate|reflexivity]|].
  vm_compute. reflexivity.
Qed.
