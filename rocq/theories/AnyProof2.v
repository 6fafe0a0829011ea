(** Operators of anyfloat_emu. *)
From Coq Require Import ZArith QArith Qabs Lia Lqa List Bool Setoid.
From Verif Require Import Res CInt Bits Traits Unpacked Cfg Posit Spec SpecFloat SpecAny FloatOps PositF AnyFloat QPow Core SpecLemmas Arith DecodeProof EncodeProof
  UOps UAdd Ops OpsAdd OpsUnary OpsUnary2 Specials Room Laws Configs Final1 Final2 Final3 Conv1 Conv2 Conv3 Conv4 Conv5 TabProof5 FloatProof FloatProof2 PositFProof PositFProof2 PositFProof3 AnyProof.
Open Scope Z_scope.

Lemma same_refl e : same_ext e e. Proof. destruct e; cbn; reflexivity. Qed.
Lemma same_trans a b c : same_ext a b -> same_ext b c -> same_ext a c.
Proof. destruct a, b, c; cbn [same_ext]; intros H1 H2; try discriminate; try congruence. rewrite H1. exact H2. Qed.

Lemma float_trunc_comp eb fb x y r : (x == y)%Q -> float_trunc eb fb x r -> float_trunc eb fb y r.
Proof.
  intros E (B & q & I & A1 & A2 & A3). split; [exact B|]. exists q. split; [exact I|]. rewrite <- E. split; [exact A1|]. split; [exact A2|].
  intros b' q' B' I' L. rewrite <- E in L. exact (A3 b' q' B' I' L).
Qed.
Lemma float_for_same eb fb d e r : same_ext d e -> float_for eb fb d r -> float_for eb fb e r.
Proof.
  intros S [B H]. split; [exact B|]. destruct d as [p| |], e as [q| |]; cbn [same_ext] in S; try discriminate; try (rewrite H; exact S).
  destruct H as [H1 H2]. split.
  - intros L. rewrite <- S in L. apply (float_trunc_comp eb fb p); auto.
  - intros L. rewrite <- S in L. auto.
Qed.
Lemma same_mul a b c d : same_ext a b -> same_ext c d -> same_ext (x_mul a c) (x_mul b d).
Proof.
  destruct a as [p|s|], b as [q|s'|]; cbn [same_ext]; try discriminate; intros H; destruct c as [p'|t|], d as [q'|t'|]; cbn [same_ext]; try discriminate; intros H';
    cbn [x_mul]; try (injection H as ->); try (injection H' as ->); try reflexivity.
  - cbn [same_ext]. rewrite H, H'. reflexivity.
  - rewrite (zero_q_comp _ _ H), (neg_q_comp _ _ H). apply same_refl.
  - rewrite (zero_q_comp _ _ H'), (neg_q_comp _ _ H'). apply same_refl.
Qed.
Lemma same_div a b c d : same_ext a b -> same_ext c d -> same_ext (x_div a c) (x_div b d).
Proof.
  destruct a as [p|s|], b as [q|s'|]; cbn [same_ext]; try discriminate; intros H; destruct c as [p'|t|], d as [q'|t'|]; cbn [same_ext]; try discriminate; intros H';
    cbn [x_div]; try (injection H as ->); try (injection H' as ->); try reflexivity.
  - rewrite (zero_q_comp _ _ H'), (zero_q_comp _ _ H), (neg_q_comp _ _ H). destruct (zero_q q'); [apply same_refl|]. cbn [same_ext]. rewrite H, H'. reflexivity.
  - rewrite (neg_q_comp _ _ H'). reflexivity.
Qed.
Lemma same_add2 a b c d : same_ext a b -> same_ext c d -> same_ext (x_add a c) (x_add b d).
Proof.
  destruct a as [p|s|], b as [q|s'|]; cbn [same_ext]; try discriminate; intros H; destruct c as [p'|t|], d as [q'|t'|]; cbn [same_ext]; try discriminate; intros H';
    cbn [x_add]; try (injection H as ->); try (injection H' as ->); try reflexivity.
  - cbn [same_ext]. rewrite H, H'. reflexivity.
  - apply same_refl.
Qed.

Section rn.
Context (eb fb : Z) (rnd : Q -> Z).
Hypothesis FO : fmt_ok eb fb.
Hypothesis RN : rounding eb fb rnd.

Lemma round_same d e : same_ext d e -> same_ext (x_round eb fb rnd d) (x_round eb fb rnd e).
Proof using RN.
  destruct d as [p| |], e as [q| |]; cbn [same_ext]; try discriminate; intros H; cbn [x_round]; try exact H.
  pose proof (rn_mono _ _ _ RN p q ltac:(lra)) as L1. pose proof (rn_mono _ _ _ RN q p ltac:(lra)) as L2.
  destruct (ieee_val eb fb (rnd p)) as [x|[|]|], (ieee_val eb fb (rnd q)) as [y|[|]|]; cbn [ext_le same_ext] in *; try contradiction; try reflexivity. lra.
Qed.
Lemma round_exact q : is_float eb fb q -> same_ext (x_round eb fb rnd (FinVal q)) (FinVal q).
Proof using RN. intros F. destruct (rn_exact _ _ _ RN q F) as (y & I & Y). cbn [x_round]. rewrite I. exact Y. Qed.
Lemma round_not_nan q : ieee_val eb fb (rnd q) <> NaNVal.
Proof using RN. intros H. pose proof (rn_mono _ _ _ RN q q ltac:(lra)) as L. rewrite H in L. exact L. Qed.

Lemma f_nan_quiet : quiet eb fb (f_nan eb fb).
Proof using FO.
  unfold quiet, f_nan. destruct FO as [_ _ Hf]. pow_pos 2 (fb - 1). assert (E : 2 ^ fb = 2 * 2 ^ (fb - 1)) by (rewrite <- Z.pow_succ_r by lia; f_equal; lia).
  rewrite E. replace ((2 ^ eb - 1) * (2 * 2 ^ (fb - 1)) + 2 ^ (fb - 1)) with (((2 ^ eb - 1) * 2 + 1) * 2 ^ (fb - 1)) by ring.
  rewrite Z.div_mul by lia. rewrite Z.add_comm, Z.mod_add by lia. reflexivity.
Qed.

(** [r] is a float with the value [e], and a quiet one if that is NaN. *)
Definition gives (e : ieee) (r : Z) : Prop := 0 <= r < 2 ^ (eb + fb + 1) /\ ieee_val eb fb r = e /\ (e = NaNVal -> quiet eb fb r).
Lemma gives_rnd q : gives (ieee_val eb fb (rnd q)) (rnd q).
Proof using RN. split; [apply (rn_range _ _ _ RN)|]. split; [reflexivity|]. intros H. destruct (round_not_nan q H). Qed.
Lemma gives_nan : gives NaNVal (f_nan eb fb).
Proof using FO. destruct (f_nan_ok eb fb FO) as [A B]. split; [exact A|]. split; [exact B|]. intros _. apply f_nan_quiet. Qed.
Lemma gives_inf s : gives (InfVal s) (f_inf eb fb s).
Proof using FO. destruct (f_inf_ok eb fb FO s) as [A B]. split; [exact A|]. split; [exact B|]. discriminate. Qed.

(** Zero has the pattern 0. *)
Definition pz (b : Z) : Prop := forall q, ieee_val eb fb b = FinVal q -> (q == 0)%Q -> b = 0.
Lemma pz_neg b q : 0 <= b < 2 ^ (eb + fb + 1) -> pz b -> ieee_val eb fb b = FinVal q -> f_neg eb fb b = neg_q q.
Proof using FO.
  intros B Z I. destruct (Qeq_dec q 0) as [E|N]; [|apply (ieee_neg eb fb FO); assumption].
  rewrite (Z q I E). unfold f_neg. destruct FO as [_ [E1 E2] Hf]. pow_pos 2 (eb + fb). destruct (Z.leb_spec (2 ^ (eb + fb)) 0); [lia|].
  unfold neg_q. rewrite (proj2 (Qle_bool_iff 0 q)); [reflexivity|lra].
Qed.

Ltac kill := first [exact gives_nan|apply gives_inf|apply gives_rnd].
Lemma f_mul_gives a b : 0 <= a < 2 ^ (eb + fb + 1) -> 0 <= b < 2 ^ (eb + fb + 1) ->
  gives (x_round eb fb rnd (x_mul (ieee_val eb fb a) (ieee_val eb fb b))) (f_mul eb fb rnd a b).
Proof using FO RN.
  intros A B. unfold f_mul. destruct (ieee_val eb fb a) as [p|s|] eqn:IA, (ieee_val eb fb b) as [q|t|] eqn:IB; cbn [x_mul x_round]; try kill.
  - rewrite (ieee_neg_inf eb fb FO b t B IB). change (f_isz p) with (zero_q p). destruct (zero_q p) eqn:Z; cbn [x_round]; [kill|].
    rewrite (ieee_neg eb fb FO a p A IA) by (apply zero_q_false; assumption). rewrite xorb_comm. kill.
  - rewrite (ieee_neg_inf eb fb FO a s A IA). change (f_isz q) with (zero_q q). destruct (zero_q q) eqn:Z; cbn [x_round]; [kill|].
    rewrite (ieee_neg eb fb FO b q B IB) by (apply zero_q_false; assumption). kill.
  - rewrite (ieee_neg_inf eb fb FO a s A IA), (ieee_neg_inf eb fb FO b t B IB). kill.
Qed.
Lemma f_div_gives a b : 0 <= a < 2 ^ (eb + fb + 1) -> 0 <= b < 2 ^ (eb + fb + 1) -> pz b ->
  gives (x_round eb fb rnd (x_div (ieee_val eb fb a) (ieee_val eb fb b))) (f_div eb fb rnd a b).
Proof using FO RN.
  intros A B Z. unfold f_div. destruct (ieee_val eb fb a) as [p|s|] eqn:IA, (ieee_val eb fb b) as [q|t|] eqn:IB; cbn [x_div x_round]; try kill.
  - change (f_isz q) with (zero_q q). change (f_isz p) with (zero_q p). destruct (zero_q q) eqn:ZQ; [|cbn [x_round]; kill].
    destruct (zero_q p) eqn:ZP; cbn [x_round]; [kill|]. rewrite (ieee_neg eb fb FO a p A IA) by (apply zero_q_false; assumption).
    rewrite (pz_neg b q B Z IB). apply zero_q_true in ZQ. rewrite (neg_q_comp _ _ ZQ). change (neg_q 0) with false. rewrite xorb_false_r. kill.
  - rewrite (ieee_neg_inf eb fb FO a s A IA), (pz_neg b q B Z IB). kill.
Qed.
Lemma f_add_gives a b : 0 <= a < 2 ^ (eb + fb + 1) -> 0 <= b < 2 ^ (eb + fb + 1) ->
  gives (x_round eb fb rnd (x_add (ieee_val eb fb a) (ieee_val eb fb b))) (f_add eb fb rnd a b).
Proof using FO RN.
  intros A B. unfold f_add. destruct (ieee_val eb fb a) as [p|s|] eqn:IA, (ieee_val eb fb b) as [q|t|] eqn:IB; cbn [x_add x_round]; try kill.
  - split; [exact B|]. split; [exact IB|discriminate].
  - split; [exact A|]. split; [exact IA|discriminate].
  - destruct (Bool.eqb s t); cbn [x_round]; [|kill]. split; [exact A|]. split; [exact IA|discriminate].
Qed.
End rn.

Lemma emulated_pos eb fb eb' fb' : emulated eb fb eb' fb' -> 8 <= eb + fb + 1.
Proof. intros (F & _). destruct F as [W _ _]. destruct W as [W|[W|[W|W]]]; lia. Qed.

(** A number of a format is a number of a wider one. *)
Lemma is_float_widen eb fb eb' fb' q : fmt_ok eb fb -> fmt_ok eb' fb' -> eb <= eb' -> fb <= fb' -> is_float eb fb q -> is_float eb' fb' q.
Proof.
  intros FO FO' E F (b & x & B & I & X). apply (is_float_comp eb' fb' x); [exact X|].
  destruct (ieee_cases eb fb FO b B) as (Bf & Be & C). rewrite I in C. destruct C as [C1 C2].
  set (s := fsign_of eb fb b) in *. set (fr := ffrac_of fb b) in *. set (ex := fexp_of eb fb b) in *.
  pose proof FO as FO1. destruct FO1 as [W [E1 E2] Hf]. pose proof FO' as FO2. destruct FO2 as [W' [E1' E2'] Hf'].
  assert (BL : 2 ^ (eb - 1) <= 2 ^ (eb' - 1)) by (apply pow2_mono; lia). pose proof (eb_pow eb fb FO) as [EP EP2].
  assert (F1 : 2 ^ (fb + 1) = 2 * 2 ^ fb) by (rewrite Z.pow_add_r by lia; ring). assert (F2 : 2 ^ (fb + 1) <= 2 ^ (fb' + 1)) by (apply pow2_mono; lia).
  assert (G : exists m j, 0 <= m < 2 ^ (fb + 1) /\ 2 - 2 ^ (eb - 1) - fb <= j /\ j + fb + 1 <= 2 ^ (eb - 1) /\ (x == sgn1 s * dy m j)%Q).
  { destruct C2 as [[C2 C3]|[C2 C3]]; [exists fr, (1 - (2 ^ (eb - 1) - 1) - fb)|exists (2 ^ fb + fr), (ex - (2 ^ (eb - 1) - 1) - fb)]; repeat split; try lia; exact C3. }
  destruct G as (m & j & M & J1 & J2 & XE).
  assert (D : is_float eb' fb' (dy m j)).
  { apply (is_float_dy eb' fb' FO'); try lia. apply Qlt_le_trans with (dy (2 ^ (fb + 1)) j); [apply dy_lt; lia|].
    unfold dy. rewrite <- pow2_Z, <- pow2_plus by lia. apply pow2_le. lia. }
  unfold sgn1 in XE. destruct s; [|apply (is_float_comp eb' fb' (dy m j)); [rewrite XE; ring|exact D]].
  apply (is_float_comp eb' fb' (- dy m j)); [rewrite XE; ring|]. apply (is_float_opp eb' fb' FO'). exact D.
Qed.

Lemma float_trunc_exact eb fb x r : float_trunc eb fb x r -> is_float eb fb x -> exists q, ieee_val eb fb r = FinVal q /\ (q == x)%Q.
Proof.
  intros (B & q & I & A1 & A2 & A3) (b' & x' & B' & I' & X). exists q. split; [exact I|].
  assert (L : (Qabs x' <= Qabs q)%Q) by (apply (A3 b' x' B' I'); rewrite X; lra). rewrite X in L.
  destruct (abs_case q) as [[Q1 Q2]|[Q1 Q2]], (abs_case x) as [[X1 X2]|[X1 X2]]; rewrite Q2, X2 in *; nra.
Qed.

Lemma k_pos k : 0 < 2 ^ (f_eb k + f_fb k + 1). Proof. destruct k; reflexivity. Qed.
Lemma k_zero k : exists z, ieee_val (f_eb k) (f_fb k) 0 = FinVal z /\ (z == 0)%Q.
Proof. destruct k; (eexists; split; [reflexivity|reflexivity]). Qed.
Lemma k_nan k : quiet (f_eb k) (f_fb k) (t_nan (any_floattrait (f_eb k) (f_fb k) true)). Proof. destruct k; reflexivity. Qed.
Section af.
Context (eb fb : Z) (k : fft).
Notation ebk := (f_eb k).
Notation fbk := (f_fb k).

(** Conversion from the implementation type. *)
Lemma af_of_gen b : fmt_ok eb fb -> eb <= ebk -> fb <= fbk ->
  (eb + fb + 1 <= 16 \/ fbk <= eb + fb + 1 \/ match ieee_val ebk fbk b with FinVal q => (q == 0)%Q \/ (least_normal ebk <= Qabs q)%Q | _ => True end) ->
  0 <= b < 2 ^ (ebk + fbk + 1) -> (ieee_val ebk fbk b = NaNVal -> quiet ebk fbk b) ->
  exists r, af_of eb fb k b = Ok r /\ float_for eb fb (ieee_val ebk fbk b) r.
Proof.
  intros FO E F SU B QN. pose proof FO as FO1. destruct FO1 as [W [E1 E2] Hf].
  assert (W32 : is_width 32) by (unfold is_width; lia). assert (W64 : is_width 64) by (unfold is_width; lia).
  assert (C : af_of eb fb k b = convert (if fbk <=? eb + fb + 1 then eb + fb + 1 else 64) 32 (any_floattrait ebk fbk true) (any_floattrait eb fb true) b).
  { unfold af_of, af_F, af_tr. rewrite k_tr. destruct (Z.leb_spec fbk (eb + fb + 1)); [reflexivity|].
    apply (convert_narrow (eb + fb + 1) ebk fbk eb fb b W (k_fmt k) FO); try lia; try exact QN.
    destruct SU as [SU|[SU|SU]]; [left; lia|lia|right; exact SU]. }
  rewrite C. clear C. set (G := if fbk <=? eb + fb + 1 then eb + fb + 1 else 64).
  assert (WG : is_width G) by (unfold G; destruct (fbk <=? eb + fb + 1); assumption).
  assert (LG : fbk <= G) by (unfold G; destruct (Z.leb_spec fbk (eb + fb + 1)); [lia|destruct k; cbn [f_fb]; lia]).
  pose proof (float_convert G 32 ebk fbk true eb fb true b WG W32 ltac:(lia) (k_fmt k) FO LG B) as H. cbv zeta in H.
  destruct (ieee_val ebk fbk b) as [q|s|].
  - destruct H as (_ & H2 & H3). unfold float_for, least_normal. destruct (Qlt_le_dec (Qabs q) (pow2 (2 - 2 ^ (eb - 1)))) as [L|L].
    + exists 0. split; [apply H3; [reflexivity|exact L]|]. split; [pow_pos 2 (eb + fb + 1); lia|]. split; [intros L'; lra|reflexivity].
    + destruct (H2 (or_introl eq_refl) L) as (r & O & T). exists r. split; [exact O|]. split; [exact (proj1 T)|]. split; [intros _; exact T|intros L'; lra].
  - destruct H as (r & O & R & I). exists r. split; [exact O|]. split; assumption.
  - destruct H as (r & O & R & I). exists r. split; [exact O|]. split; assumption.
Qed.

Hypothesis EM : emulated eb fb ebk fbk.
Lemma emFO : fmt_ok eb fb. Proof using EM. exact (proj1 EM). Qed.

Lemma af_of_gives e b : gives ebk fbk e b -> exists r, af_of eb fb k b = Ok r /\ float_for eb fb e r.
Proof.
  intros (B & I & Q). rewrite <- I. destruct EM as (F & E1 & E2 & E3). apply af_of_gen; try assumption; try lia. rewrite I. exact Q.
Qed.

(** Conversion to it. *)
Lemma af_to_spec v : 0 <= v < 2 ^ (eb + fb + 1) ->
  exists x, af_to eb fb k v = Ok x /\ 0 <= x < 2 ^ (ebk + fbk + 1) /\ same_ext (ieee_val ebk fbk x) (seen eb fb ebk v) /\ pz ebk fbk x /\
    (ieee_val ebk fbk x = NaNVal -> quiet ebk fbk x).
Proof using EM.
  intros B. pose proof emFO as FO. destruct EM as (_ & E & F & _). pose proof FO as FO1. destruct FO1 as [W [E1 E2] Hf].
  assert (W32 : is_width 32) by (unfold is_width; lia).
  assert (C : af_to eb fb k v = convert (eb + fb + 1) 32 (any_floattrait eb fb true) (any_floattrait ebk fbk true) v) by (unfold af_to; rewrite k_tr; reflexivity).
  rewrite C. pose proof (float_convert (eb + fb + 1) 32 eb fb true ebk fbk true v W W32 ltac:(lia) FO (k_fmt k) ltac:(lia) B) as H. cbv zeta in H.
  set (o := convert _ _ _ _ _) in *. unfold seen. pose proof (k_pos k) as KP.
  pose proof (k_zero k) as I0.
  destruct (ieee_val eb fb v) as [q|s|] eqn:IV.
  - destruct H as (H1 & H2 & H3). destruct (Qle_bool (least_normal ebk) (Qabs q)) eqn:L.
    + apply Qle_bool_iff in L. destruct (H2 (or_introl eq_refl) L) as (r & O & T). exists r. split; [exact O|]. split; [exact (proj1 T)|].
      destruct (float_trunc_exact ebk fbk q r T) as (y & I & Y).
      { apply (is_float_widen eb fb); try assumption; [apply k_fmt|]. exists v, q. split; [exact B|]. split; [exact IV|reflexivity]. }
      rewrite I. split; [exact Y|]. split; [|discriminate]. intros z Iz Z0. rewrite I in Iz. injection Iz as <-.
      exfalso. rewrite <- Y, Z0 in L. change (Qabs 0) with 0%Q in L. pose proof (pow2_pos (2 - 2 ^ (ebk - 1))). unfold least_normal in L. lra.
    + assert (L' : (Qabs q < pow2 (2 - 2 ^ (ebk - 1)))%Q).
      { apply Qnot_le_lt. intros L2. apply Qle_bool_iff in L2. unfold least_normal in L. rewrite L2 in L. discriminate. }
      exists 0. split; [apply H3; [reflexivity|exact L']|]. split; [lia|]. destruct I0 as (z & I0 & Z0). rewrite I0. split; [exact Z0|]. split; [intros ? _ _; reflexivity|discriminate].
  - destruct H as (r & O & R & I). exists r. rewrite I. repeat split; try lia; try assumption; try discriminate. intros z Iz. rewrite I in Iz. discriminate.
  - assert (U : o = Ok (t_nan (any_floattrait ebk fbk true))).
    { unfold o, convert. destruct (unpack_float eb fb (eb + fb + 1) 32 true FO W W32 ltac:(lia) v B) as [BF U]. rewrite U.
      destruct (ieee_cases eb fb FO v B) as (Bf & Be & C3). rewrite IV in C3. destruct C3 as [C3 C4]. rewrite C3, Z.eqb_refl.
      assert (N0 : (dec_frac fb (eb + fb + 1) v =? 0) = false).
      { apply Z.eqb_neq. unfold dec_frac. pow_pos 2 fb. pow_pos 2 (eb + 1). assert (PE : 2 ^ (eb + fb + 1) = 2 ^ (eb + 1) * 2 ^ fb) by (rewrite <- Z.pow_add_r by lia; f_equal; lia).
        rewrite PE, Z.mul_assoc, Z.div_mul by lia. nia. }
      rewrite N0. reflexivity. }
    destruct (any_nan ebk fbk true (k_fmt k)) as [R I]. exists (t_nan (any_floattrait ebk fbk true)). rewrite I. repeat split; try lia; try assumption.
    + intros z Iz. rewrite I in Iz. discriminate.
    + intros _. apply k_nan.
Qed.
End af.
