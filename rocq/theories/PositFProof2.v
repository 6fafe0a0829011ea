(** Operations of PositF. *)
From Coq Require Import ZArith QArith Qabs Lia Lqa List Bool Setoid.
From Verif Require Import Res CInt Bits Traits Unpacked Cfg Posit Spec SpecFloat FloatOps PositF QPow Core SpecLemmas Arith DecodeProof EncodeProof
  UOps UAdd Ops OpsAdd OpsUnary OpsUnary2 Specials Room Laws Configs Final1 Final2 Final3 Conv1 Conv2 Conv3 Conv4 Conv5 TabProof5 FloatProof PositFProof.
Open Scope Z_scope.

Lemma scale_comp x y e : (x == y)%Q -> scale x e -> scale y e.
Proof. unfold scale. intros E. rewrite E. auto. Qed.
Lemma room_up_comp c x y : (x == y)%Q -> room_up c x -> room_up c y.
Proof. intros E [H|(e & S & P)]; [left; rewrite <- E; exact H|right; exists e; split; [apply (scale_comp x); assumption|assumption]]. Qed.
Lemma room_via_comp c eb fb x y : (x == y)%Q -> room_via c eb fb x -> room_via c eb fb y.
Proof.
  intros E [H|[F H]]; [left; apply (room_up_comp c x); assumption|right].
  split; [apply (is_float_comp eb fb x); assumption|apply (room_comp c x); assumption].
Qed.
Lemma via_float_comp c eb fb x y r : valid_cfg c -> (x == y)%Q -> via_float c eb fb x r -> via_float c eb fb y r.
Proof.
  intros V E [F T]. vcb V. split; [apply (faithful_comp c x); assumption|]. intros I. apply (rounds_tz_comp c BN Bes x); [assumption|].
  apply T. apply (is_float_comp eb fb y); [symmetry; assumption|assumption].
Qed.
Lemma zero_q_comp x y : (x == y)%Q -> zero_q x = zero_q y.
Proof.
  intros E. unfold zero_q. destruct (Qeq_bool x 0) eqn:A, (Qeq_bool y 0) eqn:B; try reflexivity.
  - apply Qeq_bool_iff in A. assert (Qeq_bool y 0 = true) by (apply Qeq_bool_iff; rewrite <- E; exact A). congruence.
  - apply Qeq_bool_iff in B. assert (Qeq_bool x 0 = true) by (apply Qeq_bool_iff; rewrite E; exact B). congruence.
Qed.
Lemma neg_q_comp x y : (x == y)%Q -> neg_q x = neg_q y.
Proof.
  intros E. unfold neg_q. f_equal. destruct (Qle_bool 0 x) eqn:A, (Qle_bool 0 y) eqn:B; try reflexivity.
  - apply Qle_bool_iff in A. assert (Qle_bool 0 y = true) by (apply Qle_bool_iff; lra). congruence.
  - apply Qle_bool_iff in B. assert (Qle_bool 0 x = true) by (apply Qle_bool_iff; lra). congruence.
Qed.
Lemma zero_q_true x : zero_q x = true <-> (x == 0)%Q. Proof. apply Qeq_bool_iff. Qed.
Lemma zero_q_false x : zero_q x = false <-> ~ (x == 0)%Q.
Proof. rewrite <- zero_q_true. destruct (zero_q x); split; intros H; congruence. Qed.

Section op.
Variables eb fb : Z.
Hypothesis FO : fmt_ok eb fb.
Variable rnd : Q -> Z.
Hypothesis RN : rounding eb fb rnd.
Variable c : cfg.
Hypothesis V : valid_cfg c.
Hypothesis X : exp_ok c.
Hypothesis FC : float_covers c eb fb.
Hypothesis ET : et_holds c eb.
Hypothesis FF : fb <= cF c.
Hypothesis STR : emax c < 2 ^ (eb - 1) - 2.
Let tr := any_floattrait eb fb true.

Lemma f_nan_ok : 0 <= f_nan eb fb < 2 ^ (eb + fb + 1) /\ ieee_val eb fb (f_nan eb fb) = NaNVal.
Proof using FO.
  destruct (trait_inf eb fb true FO) as (_ & _ & A). pose proof (any_nan eb fb true FO) as [B C]. rewrite A in B, C.
  assert (E : f_nan eb fb = fbits eb fb false (2 ^ eb - 1) (2 ^ (fb - 1))) by (unfold f_nan, fbits; ring). rewrite E. auto.
Qed.
Lemma f_inf_ok (s : bool) : 0 <= f_inf eb fb s < 2 ^ (eb + fb + 1) /\ ieee_val eb fb (f_inf eb fb s) = InfVal s.
Proof using FO.
  destruct (trait_inf eb fb true FO) as (A1 & A2 & _). pose proof (any_inf eb fb true s FO) as [B C]. rewrite A1, A2 in B, C.
  assert (E : f_inf eb fb s = if s then fbits eb fb true (2 ^ eb - 1) 0 else fbits eb fb false (2 ^ eb - 1) 0) by (unfold f_inf, fbits; destruct s; ring).
  rewrite E. auto.
Qed.
Lemma of_nan b : 0 <= b < 2 ^ (eb + fb + 1) -> ieee_val eb fb b = NaNVal -> p_of_float c tr b = Ok (exceptional c).
Proof using FO V X ET FF. intros B I. pose proof (of_float_wide c eb fb true b V X FO ET FF B) as H. rewrite I in H. exact H. Qed.
Lemma of_inf b s : 0 <= b < 2 ^ (eb + fb + 1) -> ieee_val eb fb b = InfVal s -> p_of_float c tr b = Ok (inf_of c s).
Proof using FO V X ET FF. intros B I. pose proof (of_float_wide c eb fb true b V X FO ET FF B) as H. rewrite I in H. exact H. Qed.

Definition in_range (x : Q) : Prop :=
  (x == 0)%Q \/ (pow2 (2 - 2 ^ (eb - 1) - fb) <= Qabs x)%Q /\ (Qabs x < pow2 (2 ^ (eb - 1) - 1))%Q.
Lemma in_range_comp x y : (x == y)%Q -> in_range x -> in_range y.
Proof. intros E. unfold in_range. rewrite E. auto. Qed.

Lemma of_fin x x' : (x' == x)%Q -> in_range x -> room_via c eb fb x ->
  exists r, p_of_float c tr (rnd x') = Ok r /\ via_float c eb fb x r.
Proof using FO RN V X FC ET FF.
  intros E I R. destruct (of_rounded eb fb FO rnd RN c x' V X ET FF FC) as (r & A & B).
  - apply (in_range_comp x); [symmetry; assumption|assumption].
  - apply (room_via_comp c eb fb x); [symmetry; assumption|assumption].
  - exists r. split; [exact A|]. apply (via_float_comp c eb fb x'); assumption.
Qed.

Lemma value_scale v : real c v -> v <> 0 -> exists e, scale (value c v) e /\ - emax c <= e <= emax c.
Proof using V FC FF. intros R NZ. destruct (real_dy eb fb c V FC FF v R NZ) as (n & e & m & _ & _ & E & S). exists e. auto. Qed.
Lemma value_zero v : real c v -> (value c v == 0)%Q <-> v = 0.
Proof using V.
  clear STR FF FC ET FO. intros R. vcb V. split; [|intros ->; reflexivity]. intros E.
  apply (value_inj c BN Bes); [apply real_bounds; assumption| |rewrite E; reflexivity].
  pose proof (pow_ge4 c V). lia.
Qed.

Lemma scale_range x e : scale x e -> 2 - 2 ^ (eb - 1) - fb <= e -> e + 1 <= 2 ^ (eb - 1) - 1 -> in_range x.
Proof.
  intros [S1 S2] A B. right. split.
  - eapply Qle_trans; [|exact S1]. apply pow2_le. assumption.
  - eapply Qlt_le_trans; [exact S2|]. apply pow2_le. assumption.
Qed.
Lemma scale_mul x y e f : scale x e -> scale y f -> scale (x * y) (e + f) \/ scale (x * y) (e + f + 1).
Proof.
  intros [A1 A2] [B1 B2]. unfold scale. rewrite Qabs_Qmult. set (p := Qabs x) in *. set (q := Qabs y) in *.
  pose proof (pow2_pos e). pose proof (pow2_pos f).
  assert (L : (pow2 (e + f) <= p * q)%Q).
  { rewrite pow2_plus. apply Qle_trans with (p * pow2 f)%Q; [apply Qmult_le_r; assumption|]. apply Qmult_le_l; lra. }
  assert (U : (p * q < pow2 (e + f + 1 + 1))%Q).
  { assert (E : (pow2 (e + f + 1 + 1) == pow2 (e + 1) * pow2 (f + 1))%Q) by (rewrite <- pow2_plus; replace (e + 1 + (f + 1)) with (e + f + 1 + 1) by lia; reflexivity).
    rewrite E. apply Qlt_le_trans with (pow2 (e + 1) * q)%Q; [apply Qmult_lt_r; lra|]. apply Qmult_le_l; [apply pow2_pos|lra]. }
  destruct (Qlt_le_dec (p * q) (pow2 (e + f + 1))) as [D|D]; [left|right]; split; assumption.
Qed.
Lemma scale_inv x e : scale x e -> scale (/ x) (- e) \/ scale (/ x) (- e - 1).
Proof.
  intros [A1 A2]. unfold scale. rewrite Qabs_Qinv. set (p := Qabs x) in *. pose proof (pow2_pos e) as E0.
  assert (PP : (0 < p)%Q) by lra. assert (IP : (0 < / p)%Q) by (apply Qinv_lt_0_compat; assumption).
  assert (I1 : (p * / p == 1)%Q) by (apply Qmult_inv_r; lra).
  assert (U : (/ p <= pow2 (- e))%Q).
  { apply (Qmult_le_l _ _ p PP). rewrite I1. apply Qle_trans with (pow2 e * pow2 (- e))%Q; [|apply Qmult_le_r; [apply pow2_pos|assumption]].
    rewrite <- pow2_plus. replace (e + - e) with 0 by lia. rewrite pow2_0. lra. }
  assert (L : (pow2 (- e - 1) < / p)%Q).
  { apply (Qmult_lt_l _ _ p PP). rewrite I1. apply Qlt_le_trans with (pow2 (e + 1) * pow2 (- e - 1))%Q; [apply Qmult_lt_r; [apply pow2_pos|assumption]|].
    rewrite <- pow2_plus. replace (e + 1 + (- e - 1)) with 0 by lia. rewrite pow2_0. lra. }
  assert (ST : (pow2 (- e) < pow2 (- e + 1))%Q) by (apply pow2_lt; lia).
  destruct (Qlt_le_dec (/ p) (pow2 (- e))) as [D|D]; [right|left].
  - split; [lra|]. replace (- e - 1 + 1) with (- e) by lia. assumption.
  - split; [assumption|lra].
Qed.

Lemma mul_range a b : 2 * emax c < 2 ^ (eb - 1) - 2 -> real c a -> real c b -> in_range (value c a * value c b).
Proof using FO V FC FF.
  intros PF Ra Rb. destruct FO as [_ _ Hf].
  destruct (Z.eq_dec a 0) as [->|NA]; [left; change (value c 0) with 0%Q; ring|].
  destruct (Z.eq_dec b 0) as [->|NB]; [left; change (value c 0) with 0%Q; ring|].
  destruct (value_scale a Ra NA) as (e & Se & Be). destruct (value_scale b Rb NB) as (f & Sf & Bf).
  destruct (scale_mul _ _ _ _ Se Sf) as [S|S]; eapply scale_range; try exact S; lia.
Qed.
Lemma div_range a b : 2 * emax c < 2 ^ (eb - 1) - 2 -> real c a -> real c b -> b <> 0 -> in_range (value c a / value c b).
Proof using FO V FC FF.
  intros PF Ra Rb NB. destruct FO as [_ _ Hf].
  destruct (Z.eq_dec a 0) as [->|NA]; [left; change (value c 0) with 0%Q; unfold Qdiv; ring|].
  destruct (value_scale a Ra NA) as (e & Se & Be). destruct (value_scale b Rb NB) as (f & Sf & Bf). unfold Qdiv.
  destruct (scale_inv _ _ Sf) as [Sf'|Sf']; destruct (scale_mul _ _ _ _ Se Sf') as [S|S]; eapply scale_range; try exact S; lia.
Qed.
Lemma real_grid v : real c v -> exists z, (value c v == dy z (- emax c - gran c))%Q.
Proof using V FC FF.
  intros R. destruct (Z.eq_dec v 0) as [->|NZ]; [exists 0; symmetry; apply dy_0|].
  destruct (real_dy eb fb c V FC FF v R NZ) as (n & e & m & Q & M & E & _).
  exists ((if n then -1 else 1) * (m * 2 ^ (e + emax c))). rewrite Q.
  assert (D : (dy m (e - gran c) == dy (m * 2 ^ (e + emax c)) (- emax c - gran c))%Q).
  { rewrite dy_pow by lia. replace (- emax c - gran c + (e + emax c)) with (e - gran c) by lia. reflexivity. }
  destruct n; cbn [sgq]; rewrite D; [rewrite dy_opp, (Z.mul_comm (-1)), <- Z.opp_eq_mul_m1|rewrite Z.mul_1_l]; try reflexivity.
Qed.
Lemma add_range a b : real c a -> real c b -> in_range (value c a + value c b).
Proof using FO V FC FF STR.
  intros Ra Rb. pose proof FO as FO'. destruct FO' as [_ [E1 E2] Hf]. vcb V.
  destruct (real_grid a Ra) as (p & P). destruct (real_grid b Rb) as (q & Q).
  assert (G : gran c <= fb) by (rewrite gran_val; destruct FC; lia).
  assert (S : (value c a + value c b == dy (p + q) (- emax c - gran c))%Q) by (rewrite P, Q; apply dy_add).
  destruct (Z.eq_dec (p + q) 0) as [Z0|NZ]; [left; rewrite S, Z0; apply dy_0|].
  assert (BV : forall v, real c v -> (Qabs (value c v) < pow2 (emax c + 1))%Q).
  { intros v Rv. destruct (Z.eq_dec v 0) as [->|NV]; [change (value c 0) with 0%Q; unfold Qabs; cbn; apply pow2_pos|].
    destruct (value_scale v Rv NV) as (e & [_ Se] & Be). eapply Qlt_le_trans; [exact Se|]. apply pow2_le. lia. }
  right. split.
  - rewrite S. assert (A : (Qabs (dy (p + q) (- emax c - gran c)) == dy (Z.abs (p + q)) (- emax c - gran c))%Q).
    { unfold dy. rewrite Qabs_Qmult. rewrite (Qabs_pos (pow2 _)) by (pose proof (pow2_pos (- emax c - gran c)); lra). reflexivity. }
    rewrite A. apply Qle_trans with (dy 1 (- emax c - gran c)); [|apply dy_le; lia].
    unfold dy. change (inject_Z 1) with 1%Q. rewrite Qmult_1_l. apply pow2_le. lia.
  - pose proof (BV a Ra). pose proof (BV b Rb). eapply Qle_lt_trans; [apply Qabs_triangle|].
    assert (D : (pow2 (emax c + 2) == pow2 (emax c + 1) * 2)%Q) by (replace (emax c + 2) with (emax c + 1 + 1) by lia; rewrite pow2_plus; reflexivity).
    apply Qlt_le_trans with (pow2 (emax c + 2)); [rewrite D; lra|]. apply pow2_le. lia.
Qed.

(** Sign of a float operand. *)
Lemma op_neg v b : pattern c v -> 0 <= b < 2 ^ (eb + fb + 1) -> same_ext (ieee_val eb fb b) (ext_of c v) -> (v = 0 -> b = 0) ->
  f_neg eb fb b = match ext_of c v with FinVal x => neg_q x | InfVal s => s | NaNVal => f_neg eb fb b end.
Proof using FO V.
  intros P B S Z0. destruct (ext_of_cases c V v P) as [[R E]|[[N E]|[I E]]]; rewrite E in *.
  - unfold same_ext in S. destruct (ieee_val eb fb b) as [q| |] eqn:Iv; try discriminate.
    destruct (Z.eq_dec v 0) as [->|NV].
    + rewrite Z0 by reflexivity. unfold f_neg. destruct FO. destruct (Z.leb_spec (2 ^ (eb + fb)) 0); [|reflexivity]. pow_pos 2 (eb + fb). lia.
    + rewrite (ieee_neg eb fb FO b q B Iv); [apply neg_q_comp; assumption|]. rewrite S. rewrite value_zero by assumption. assumption.
  - reflexivity.
  - unfold same_ext in S. destruct (ieee_val eb fb b) as [q|s|] eqn:Iv; try discriminate. injection S as ->. apply (ieee_neg_inf eb fb FO b _ B Iv).
Qed.

Definition fop_mul (a b : Z) : res Z :=
  let! x := p_to_float c tr a in let! y := p_to_float c tr b in p_of_float c tr (f_mul eb fb rnd x y).
Definition fop_div (a b : Z) : res Z :=
  let! x := p_to_float c tr a in let! y := p_to_float c tr b in p_of_float c tr (f_div eb fb rnd x y).
Definition fop_add (a b : Z) : res Z :=
  let! x := p_to_float c tr a in let! y := p_to_float c tr b in p_of_float c tr (f_add eb fb rnd x y).

Ltac use_nan := eexists; split; [apply of_nan; apply f_nan_ok|reflexivity].
Ltac use_inf := eexists; split; [apply of_inf; apply f_inf_ok|].

Lemma fop_mul_spec a b : 2 * emax c < 2 ^ (eb - 1) - 2 -> pattern c a -> pattern c b -> fits c eb fb (x_mul (ext_of c a) (ext_of c b)) ->
  exists r, fop_mul a b = Ok r /\ posit_for c (via_float c eb fb) (x_mul (ext_of c a) (ext_of c b)) r.
Proof using FO RN V X FC ET FF STR.
  intros PF Pa Pb Fit. destruct (to_ext eb fb FO c V FC ET FF a Pa) as (x & Ox & Bx & Sx & Zx).
  destruct (to_ext eb fb FO c V FC ET FF b Pb) as (y & Oy & By & Sy & Zy).
  unfold fop_mul, tr. rewrite Ox, Oy. cbn [bind]. fold tr.
  pose proof (op_neg a x Pa Bx Sx Zx) as Nx. pose proof (op_neg b y Pb By Sy Zy) as Ny.
  unfold f_mul. rewrite Nx, Ny. clear Nx Ny Zx Zy Ox Oy.
  destruct (ext_of_cases c V a Pa) as [[Ra Ea]|[[Na Ea]|[Ia Ea]]], (ext_of_cases c V b Pb) as [[Rb Eb]|[[Nb Eb]|[Ib Eb]]]; rewrite Ea, Eb in *;
    unfold same_ext in Sx, Sy; destruct (ieee_val eb fb x) as [p|s|]; try discriminate; destruct (ieee_val eb fb y) as [q|s'|]; try discriminate;
    cbn [x_mul posit_for fits] in *; try use_nan.
  - apply of_fin; [rewrite Sx, Sy; reflexivity|apply mul_range; assumption|assumption].
  - unfold f_isz. fold (zero_q p). rewrite (zero_q_comp _ _ Sx). destruct (zero_q (value c a)); cbn [posit_for]; [use_nan|use_inf].
    cbn [posit_for]. rewrite xorb_comm. reflexivity.
  - unfold f_isz. fold (zero_q q). rewrite (zero_q_comp _ _ Sy). destruct (zero_q (value c b)); cbn [posit_for]; [use_nan|use_inf]. reflexivity.
  - use_inf. reflexivity.
Qed.

Lemma fop_div_spec a b : 2 * emax c < 2 ^ (eb - 1) - 2 -> pattern c a -> pattern c b -> fits c eb fb (x_div (ext_of c a) (ext_of c b)) ->
  exists r, fop_div a b = Ok r /\ posit_for c (via_float c eb fb) (x_div (ext_of c a) (ext_of c b)) r.
Proof using FO RN V X FC ET FF STR.
  intros PF Pa Pb Fit. destruct (to_ext eb fb FO c V FC ET FF a Pa) as (x & Ox & Bx & Sx & Zx).
  destruct (to_ext eb fb FO c V FC ET FF b Pb) as (y & Oy & By & Sy & Zy).
  unfold fop_div, tr. rewrite Ox, Oy. cbn [bind]. fold tr.
  pose proof (op_neg a x Pa Bx Sx Zx) as Nx. pose proof (op_neg b y Pb By Sy Zy) as Ny.
  unfold f_div. rewrite Nx, Ny. clear Nx Ny Zx Zy Ox Oy.
  destruct (ext_of_cases c V a Pa) as [[Ra Ea]|[[Na Ea]|[Ia Ea]]], (ext_of_cases c V b Pb) as [[Rb Eb]|[[Nb Eb]|[Ib Eb]]]; rewrite Ea, Eb in *;
    unfold same_ext in Sx, Sy; destruct (ieee_val eb fb x) as [p|s|]; try discriminate; destruct (ieee_val eb fb y) as [q|s'|]; try discriminate;
    cbn [x_div posit_for fits] in *; try use_nan.
  - unfold f_isz. fold (zero_q p). fold (zero_q q). rewrite (zero_q_comp _ _ Sx), (zero_q_comp _ _ Sy).
    destruct (zero_q (value c b)) eqn:ZB.
    + apply zero_q_true in ZB. destruct (zero_q (value c a)); cbn [posit_for]; [use_nan|use_inf]. cbn [posit_for]. f_equal.
      assert (neg_q (value c b) = false) by (rewrite (neg_q_comp _ _ ZB); reflexivity). rewrite H, xorb_false_r. reflexivity.
    + apply zero_q_false in ZB. cbn [fits posit_for] in *. apply of_fin; [rewrite Sx, Sy; reflexivity| |assumption].
      apply div_range; try assumption. intros ->. apply ZB. reflexivity.
  - apply of_fin; [reflexivity|left; reflexivity|assumption].
  - use_inf. reflexivity.
Qed.

Lemma fop_add_spec a b : pattern c a -> pattern c b -> fits c eb fb (x_add (ext_of c a) (ext_of c b)) ->
  exists r, fop_add a b = Ok r /\ posit_for c (via_float c eb fb) (x_add (ext_of c a) (ext_of c b)) r.
Proof using FO RN V X FC ET FF STR.
  intros Pa Pb Fit. destruct (to_ext eb fb FO c V FC ET FF a Pa) as (x & Ox & Bx & Sx & Zx).
  destruct (to_ext eb fb FO c V FC ET FF b Pb) as (y & Oy & By & Sy & Zy).
  unfold fop_add, tr. rewrite Ox, Oy. cbn [bind]. fold tr.
  unfold f_add. clear Zx Zy Ox Oy.
  destruct (ext_of_cases c V a Pa) as [[Ra Ea]|[[Na Ea]|[Ia Ea]]], (ext_of_cases c V b Pb) as [[Rb Eb]|[[Nb Eb]|[Ib Eb]]]; rewrite Ea, Eb in *;
    unfold same_ext in Sx, Sy; destruct (ieee_val eb fb x) as [p|s|] eqn:Ivx; try discriminate; destruct (ieee_val eb fb y) as [q|s'|] eqn:Ivy; try discriminate;
    cbn [x_add posit_for fits] in *; try use_nan.
  - apply of_fin; [rewrite Sx, Sy; reflexivity|apply add_range; assumption|assumption].
  - injection Sy as ->. eexists. split; [apply of_inf; eassumption|reflexivity].
  - injection Sx as ->. eexists. split; [apply of_inf; eassumption|reflexivity].
  - injection Sx as ->. injection Sy as ->. destruct (Bool.eqb (a <? 0) (b <? 0)); cbn [posit_for]; [|use_nan].
    eexists. split; [apply of_inf; eassumption|reflexivity].
Qed.

(** A positive literal on the left. *)
Lemma lit_mul l q v : 0 <= l < 2 ^ (eb + fb + 1) -> ieee_val eb fb l = FinVal q -> (0 < q)%Q -> pattern c v ->
  (forall x, ext_of c v = FinVal x -> in_range (q * x)) -> fits c eb fb (x_mul (FinVal q) (ext_of c v)) ->
  exists r, (let! y := p_to_float c tr v in p_of_float c tr (f_mul eb fb rnd l y)) = Ok r /\ posit_for c (via_float c eb fb) (x_mul (FinVal q) (ext_of c v)) r.
Proof using FO RN V X FC ET FF STR.
  intros Bl Il Q P IR Fit. destruct (to_ext eb fb FO c V FC ET FF v P) as (y & Oy & By & Sy & Zy).
  unfold tr. rewrite Oy. cbn [bind]. fold tr. pose proof (op_neg v y P By Sy Zy) as Ny.
  assert (NL : f_neg eb fb l = false).
  { rewrite (ieee_neg eb fb FO l q Bl Il) by lra. unfold neg_q. assert (H : Qle_bool 0 q = true) by (apply Qle_bool_iff; lra). rewrite H. reflexivity. }
  unfold f_mul. rewrite Ny, NL, Il. clear Ny Zy Oy.
  assert (ZQ : zero_q q = false) by (apply zero_q_false; lra).
  assert (NQ : neg_q q = false). { unfold neg_q. assert (H : Qle_bool 0 q = true) by (apply Qle_bool_iff; lra). rewrite H. reflexivity. }
  destruct (ext_of_cases c V v P) as [[R E]|[[N E]|[I E]]]; rewrite E in *; unfold same_ext in Sy; destruct (ieee_val eb fb y) as [p|s|]; try discriminate;
    cbn [x_mul posit_for fits] in *; try use_nan.
  - apply of_fin; [rewrite Sy; reflexivity|apply IR; reflexivity|assumption].
  - unfold f_isz. fold (zero_q q). rewrite ZQ in *. cbn [posit_for]. use_inf. cbn [posit_for]. rewrite NQ, xorb_false_r, xorb_false_l. reflexivity.
Qed.
Lemma lit_div l q v : 0 <= l < 2 ^ (eb + fb + 1) -> ieee_val eb fb l = FinVal q -> (0 < q)%Q -> pattern c v ->
  (forall x, ext_of c v = FinVal x -> in_range (q / x)) -> fits c eb fb (x_div (FinVal q) (ext_of c v)) ->
  exists r, (let! y := p_to_float c tr v in p_of_float c tr (f_div eb fb rnd l y)) = Ok r /\ posit_for c (via_float c eb fb) (x_div (FinVal q) (ext_of c v)) r.
Proof using FO RN V X FC ET FF STR.
  intros Bl Il Q P IR Fit. destruct (to_ext eb fb FO c V FC ET FF v P) as (y & Oy & By & Sy & Zy).
  unfold tr. rewrite Oy. cbn [bind]. fold tr. pose proof (op_neg v y P By Sy Zy) as Ny.
  assert (NL : f_neg eb fb l = false).
  { rewrite (ieee_neg eb fb FO l q Bl Il) by lra. unfold neg_q. assert (H : Qle_bool 0 q = true) by (apply Qle_bool_iff; lra). rewrite H. reflexivity. }
  unfold f_div. rewrite Ny, NL, Il. clear Ny Zy Oy.
  assert (ZQ : zero_q q = false) by (apply zero_q_false; lra).
  assert (NQ : neg_q q = false). { unfold neg_q. assert (H : Qle_bool 0 q = true) by (apply Qle_bool_iff; lra). rewrite H. reflexivity. }
  destruct (ext_of_cases c V v P) as [[R E]|[[N E]|[I E]]]; rewrite E in *; unfold same_ext in Sy; destruct (ieee_val eb fb y) as [p|s|]; try discriminate;
    cbn [x_div posit_for fits] in *; try use_nan.
  - unfold f_isz. fold (zero_q p). fold (zero_q q). rewrite (zero_q_comp _ _ Sy), ZQ in *. destruct (zero_q (value c v)) eqn:ZV.
    + apply zero_q_true in ZV. cbn [posit_for]. use_inf. cbn [posit_for]. rewrite NQ.
      assert (H : neg_q (value c v) = false) by (rewrite (neg_q_comp _ _ ZV); reflexivity). rewrite H. reflexivity.
    + cbn [fits posit_for] in *. apply of_fin; [rewrite Sy; reflexivity|apply IR; reflexivity|assumption].
  - apply of_fin; [reflexivity|left; reflexivity|assumption].
Qed.
Lemma inv_range v : real c v -> in_range (1 / value c v).
Proof using FO V FC FF STR.
  intros R. destruct FO as [_ _ Hf]. destruct (Z.eq_dec v 0) as [->|NZ]; [left; reflexivity|].
  destruct (value_scale v R NZ) as (e & S & B).
  assert (E : (/ value c v == 1 / value c v)%Q) by (unfold Qdiv; ring). apply (in_range_comp _ _ E).
  destruct (scale_inv _ _ S) as [S'|S']; eapply scale_range; try exact S'; lia.
Qed.
Lemma twice_float v : real c v -> is_float eb fb (2 * value c v) /\ in_range (2 * value c v).
Proof using FO V FC FF STR.
  intros R. pose proof FO as FO'. destruct FO' as [_ [E1 E2] Hf]. vcb V.
  destruct (Z.eq_dec v 0) as [->|NZ]; [split; [apply (is_float_comp eb fb 0); [reflexivity|apply is_float_0; assumption]|left; reflexivity]|].
  destruct (real_dy eb fb c V FC FF v R NZ) as (n & e & m & Q & M & E & S). pose proof (gran_nonneg c BN Bes) as G0.
  assert (G : gran c <= fb) by (rewrite gran_val; destruct FC; lia).
  assert (S2 : scale (2 * value c v) (e + 1)).
  { destruct S as [S1 S2]. unfold scale. rewrite Qabs_Qmult. change (Qabs 2) with 2%Q. rewrite !(pow2_plus _ 1). change (pow2 1) with 2%Q. rewrite pow2_plus in S2. change (pow2 1) with 2%Q in S2. lra. }
  split; [|eapply scale_range; [exact S2|lia|lia]].
  assert (D : (2 * dy m (e - gran c) == dy (m * 2 ^ (fb - gran c)) (e + 1 - fb))%Q).
  { rewrite dy_pow by lia. replace (e + 1 - fb + (fb - gran c)) with (e - gran c + 1) by lia. unfold dy. rewrite (pow2_plus _ 1). change (pow2 1) with 2%Q. ring. }
  assert (F : is_float eb fb (dy (m * 2 ^ (fb - gran c)) (e + 1 - fb))).
  { pow_pos 2 (fb - gran c). assert (E3 : 2 ^ (fb + 1) = 2 ^ (gran c + 1) * 2 ^ (fb - gran c)) by (rewrite <- Z.pow_add_r by lia; f_equal; lia).
    pow_pos 2 (gran c). apply is_float_dy; [assumption|nia|lia|].
    destruct S2 as [_ S2]. rewrite <- D. assert (A : (Qabs (2 * value c v) == 2 * dy m (e - gran c))%Q).
    { rewrite Qabs_Qmult, Q, sgq_abs by (pose proof (dy_pos m (e - gran c)); lra || (apply Qlt_le_weak, dy_pos; lia)). reflexivity. }
    rewrite A in S2. eapply Qlt_le_trans; [exact S2|]. apply pow2_le. lia. }
  rewrite <- D in F || apply (is_float_comp eb fb _ _ (Qeq_sym _ _ D)) in F.
  destruct n; cbn [sgq] in Q.
  - apply (is_float_comp eb fb (- (2 * dy m (e - gran c)))); [rewrite Q; ring|]. apply is_float_opp; assumption.
  - apply (is_float_comp eb fb (2 * dy m (e - gran c))); [rewrite Q; ring|]. assumption.
Qed.
End op.
