(** Algebraic laws of the operations: outcomes of +, commutativity, symmetry, neutral elements,
    monotonicity. *)
From Coq Require Import ZArith QArith Qabs Lia Lqa Bool List.
From Verif Require Import Res CInt Bits Traits Unpacked Cfg Posit Spec QPow Core SpecLemmas Arith
  DecodeProof EncodeProof UOps UAdd Ops OpsAdd OpsUnary OpsUnary2 Specials Room.
Open Scope Z_scope.

Lemma ropp c v : real c v -> real c (- v).
Proof. unfold real. lia. Qed.

(** ** Outcome of + *)
Lemma cellb_scale F n e f J x : 8 <= F -> cellb F e f J x ->
  scale (sgq n x) e \/ scale (sgq n x) (e - 1).
Proof.
  intros HF [Hf [HJ [M [A B]]]]. pow_pos 2 F.
  assert (P8 : 2 ^ 3 <= 2 ^ F) by (apply pow2_mono; lia).
  assert (PJ : 2 ^ J <= 2 ^ 3) by (apply pow2_mono; lia). change (2 ^ 3) with 8 in *.
  assert (P : (0 < x)%Q) by (pose proof (lval_pos F (e * 2 ^ F + f - 2 ^ J) ltac:(lia)); lra).
  assert (LP : forall k, (lval F (k * 2 ^ F) == pow2 k)%Q) by (intros; apply lval_pow2; lia).
  assert (LO : (pow2 (e - 1) <= x)%Q).
  { rewrite <- LP. apply Qlt_le_weak. eapply Qle_lt_trans; [|exact A]. apply lval_le; lia. }
  assert (HI : (x < pow2 (e + 1))%Q).
  { rewrite <- LP. eapply Qle_lt_trans; [exact B|]. apply lval_lt; lia. }
  unfold scale. rewrite sgq_abs by lra. replace (e - 1 + 1) with e by lia.
  destruct (Qlt_le_dec x (pow2 e)); [right|left]; split; lra.
Qed.

Lemma add_fits_mul c : add_fits c -> mul_fits c.
Proof. unfold add_fits, mul_fits. lia. Qed.
Lemma mul_fits_frac c : mul_fits c -> frac_fits c.
Proof. unfold frac_fits, mul_fits. lia. Qed.

Lemma near_scales c a b : valid_cfg c -> frac_fits c -> real c a -> real c b -> a <> 0 -> b <> 0 ->
  exists ea eb, scale (value c a) ea /\ scale (value c b) eb /\
    (near c (value c a) (value c b) <-> Z.abs (ea - eb) < Z.max 32 (cF c)).
Proof.
  intros V FF Ra Rb Na Nb. destruct (scale_of c a V FF Ra Na) as [ea Sa]. destruct (scale_of c b V FF Rb Nb) as [eb Sb].
  exists ea, eb. split; [assumption|]. split; [assumption|]. split; intros H.
  - apply H; assumption.
  - intros ea' eb' Sa' Sb'. rewrite (scale_unique (value c a) ea' ea), (scale_unique (value c b) eb' eb) by assumption. assumption.
Qed.

Lemma p_add_same_room c a b : valid_cfg c -> exp_ok c -> mul_fits c -> real c a -> real c b -> same_sign a b ->
  (near c (value c a) (value c b) -> room c (value c a + value c b) -> exists r, p_add c a b = Ok r) /\
  (~ near c (value c a) (value c b) \/ ~ room c (value c a + value c b) -> p_add c a b = UB ShiftCount).
Proof.
  intros V X MF Ra Rb SS. vcb V. pose proof (mul_fits_frac c MF) as FF. unfold same_sign in SS.
  assert (Na : a <> 0) by lia. assert (Nb : b <> 0) by lia.
  destruct (near_scales c a b V FF Ra Rb Na Nb) as [ea [eb [Sa [Sb NE]]]].
  assert (SB : (a <? 0) = (b <? 0)) by (destruct (Z.ltb_spec a 0), (Z.ltb_spec b 0); lia).
  destruct (Z_lt_le_dec (Z.abs (ea - eb)) (Z.max 32 (cF c))) as [D|D].
  - destruct (p_add_same_core c a b V Ra Rb Na Nb ea eb MF SB Sa Sb D) as [n [e [f [j [x [E [J [C Vx]]]]]]]].
    destruct (cell_outcome c _ n e f j x _ V X ltac:(lia) ltac:(lia) E C Vx) as [A B].
    split; [auto|]. intros [N|N]; [|auto]. exfalso. apply N, NE, D.
  - assert (NN : ~ near c (value c a) (value c b)) by (rewrite NE; lia).
    split; [contradiction|]. intros _. apply (p_add_far c a b V Ra Rb Na Nb ea eb); assumption.
Qed.

Lemma p_add_room c a b : valid_cfg c -> exp_ok c -> add_fits c -> real c a -> real c b -> a <> 0 -> b <> 0 ->
  (near c (value c a) (value c b) -> room_up c (value c a + value c b) -> exists r, p_add c a b = Ok r) /\
  (~ near c (value c a) (value c b) -> p_add c a b = UB ShiftCount).
Proof.
  intros V X AF Ra Rb Na Nb. vcb V. pose proof (add_fits_mul c AF) as MF. pose proof (mul_fits_frac c MF) as FF.
  destruct (near_scales c a b V FF Ra Rb Na Nb) as [ea [eb [Sa [Sb NE]]]].
  split.
  2: { intros NN. rewrite NE in NN. apply (p_add_far c a b V Ra Rb Na Nb ea eb); try assumption. lia. }
  intros D RU. rewrite NE in D.
  destruct (Bool.bool_dec (a <? 0) (b <? 0)) as [SS|OS].
  - destruct (p_add_same_room c a b V X MF Ra Rb) as [A _].
    { unfold same_sign. destruct (Z.ltb_spec a 0), (Z.ltb_spec b 0); try discriminate; lia. }
    apply A; [apply NE, D|]. destruct RU as [Z0|[e [S [R1 R2]]]]; [left; assumption|right; eauto].
  - assert (SB : (b <? 0) = negb (a <? 0)) by (destruct (a <? 0), (b <? 0); cbn; congruence).
    destruct (p_add_opp_core c a b V Ra Rb Na Nb ea eb AF SB Sa Sb D) as [[E Z0]|[n [e [f [J [x [E [C Vx]]]]]]]];
      [eauto|].
    rewrite E. apply pack_room_defined; try assumption; [apply C|].
    destruct (cellb_scale (cF c) n e f J x ltac:(lia) C) as [S|S];
      (eapply scale_comp in S; [|symmetry; exact Vx]); destruct RU as [Z0|[e' [S' [R1 R2]]]];
      try (exfalso; eapply scale_nz; eassumption).
    + rewrite (scale_unique _ e e') by eassumption. assumption.
    + replace e with (e' + 1); [assumption|]. pose proof (scale_unique _ _ _ S S'). lia.
Qed.

(** ** Negated operands *)
Lemma unpack_opp c v e f : valid_cfg c -> real c v -> v <> 0 ->
  unpack c v = Ok (U Regular (v <? 0) e f) -> unpack c (- v) = Ok (U Regular (negb (v <? 0)) e f).
Proof.
  intros V R NZ E. vcb V.
  destruct (unpack_spec c v V R NZ) as [e1 [f1 [U1 [H1 [_ Q1]]]]].
  destruct (unpack_spec c (- v) V (ropp c v R) ltac:(lia)) as [e2 [f2 [U2 [H2 [_ Q2]]]]].
  rewrite E in U1. injection U1 as <- <-. rewrite Z.abs_opp in Q2.
  assert (Q : e2 * 2 ^ cF c + f2 = e * 2 ^ cF c + f) by lia. pow_pos 2 (cF c).
  assert (e2 = e) by nia. subst e2. assert (f2 = f) by lia. subst f2.
  rewrite U2. replace (- v <? 0) with (negb (v <? 0)); [reflexivity|].
  destruct (Z.ltb_spec v 0), (Z.ltb_spec (- v) 0); cbn; lia.
Qed.

Lemma pack_opp c n e f : valid_cfg c -> exp_ok c -> 0 <= f < 2 ^ cF c ->
  pack_posit c (U Regular (negb n) e f) = rmap Z.opp (pack_posit c (U Regular n e f)).
Proof.
  intros V X Hf. rewrite !pack_posit_spec by assumption. destruct (packable _ _); [|reflexivity].
  cbn [rmap]. f_equal. unfold sg. destruct n; cbn [negb]; lia.
Qed.

Lemma addneg_neg na nb A B : A <> B -> addneg (negb na) (negb nb) A B = negb (addneg na nb A B).
Proof. intros N. unfold addneg. destruct na, nb; cbn [negb Bool.eqb]; destruct (A >? B); reflexivity. Qed.
Lemma addneg_comm na nb A B : A <> B -> addneg nb na B A = addneg na nb A B.
Proof.
  intros N. unfold addneg. rewrite !Z.gtb_ltb.
  destruct na, nb; cbn [Bool.eqb]; try reflexivity; destruct (Z.ltb_spec A B), (Z.ltb_spec B A); try reflexivity; lia.
Qed.
Lemma addfrac_comm na nb A B : addfrac nb na B A = addfrac na nb A B.
Proof. unfold addfrac. destruct na, nb; cbn [Bool.eqb]; lia. Qed.
Lemma addfrac_neg na nb A B : addfrac (negb na) (negb nb) A B = addfrac na nb A B.
Proof. unfold addfrac. destruct na, nb; cbn [Bool.eqb negb]; lia. Qed.
Lemma addneg_same na A B : addneg na na A B = na.
Proof. unfold addneg. rewrite eqb_reflx. reflexivity. Qed.

Lemma norm_zero F E n e : u_normalized F E (U Regular n e 0) = Ok (u_special Zero false).
Proof. reflexivity. Qed.

(** normalization ignores the sign of a nonzero fraction *)
Lemma norm_sign F E n e fr : fr <> 0 ->
  u_normalized F E (U Regular (negb n) e fr) =
  rmap (fun u => U Regular (negb (uneg u)) (uexp u) (ufrac u)) (u_normalized F E (U Regular n e fr)).
Proof.
  intros N. unfold u_normalized. cbn [ufrac uexp uneg]. destruct (Z.eqb_spec fr 0); [contradiction|].
  destruct (findbitleftmostC F fr) as [k|]; cbn [bind rmap]; [|reflexivity].
  destruct (csub _ _ _) as [e1|]; cbn [bind rmap]; [|reflexivity].
  destruct (cshl _ _ _) as [f1|]; cbn [bind rmap]; reflexivity.
Qed.
Lemma norm_form F E n e fr u : fr <> 0 -> is_width F -> u_normalized F E (U Regular n e fr) = Ok u ->
  exists e' f', u = U Regular n e' f' /\ 0 <= f' < 2 ^ F.
Proof.
  intros N WF. unfold u_normalized. cbn [ufrac uexp uneg]. destruct (Z.eqb_spec fr 0); [contradiction|].
  destruct (findbitleftmostC F fr) as [k|]; cbn [bind]; [|discriminate].
  destruct (csub _ _ _) as [e1|]; cbn [bind]; [|discriminate].
  destruct (cshl _ _ _) as [f1|]; cbn [bind]; [|discriminate].
  intros H. injection H as <-. unfold u_mk. do 2 eexists. split; [reflexivity|].
  unfold cast. cbn [isg uint iw]. unfold wrapu. apply Z.mod_pos_bound. pose proof (is_width_pos F WF). pow_pos 2 F. lia.
Qed.

Section Regs.
Variables (c : cfg) (a b : Z).
Hypothesis (V : valid_cfg c) (X : exp_ok c).
Hypothesis (Ra : real c a) (Rb : real c b) (Na : a <> 0) (Nb : b <> 0).

Lemma p_add_comm_reg : p_add c a b = p_add c b a.
Proof using V Ra Rb Na Nb.
  rewrite !p_add_unfold by assumption.
  destruct (unpack_reg c a V Ra Na) as [e1 [f1 [E1 [H1 B1]]]].
  destruct (unpack_reg c b V Rb Nb) as [e2 [f2 [E2 [H2 B2]]]].
  rewrite E1, E2. cbn [bind]. vcb V. pose proof (E_room c V). destruct (emax_bound c V) as [M1 M2].
  destruct (Z_lt_le_dec (Z.abs (e1 - e2)) (pw (cF c))) as [D|D].
  2: { rewrite !u_add_ub; try assumption; try reflexivity; try (apply vc_F, V); try (apply c_E_width, V); lia. }
  rewrite (u_add_eq _ _ _ _ e1 e2), (u_add_eq _ _ _ _ e2 e1); try assumption; try (apply vc_F, V); try (apply c_E_width, V); try lia.
  rewrite (Z.max_comm e2 e1). set (M := Z.max e1 e2).
  set (A := sig2 (cF c) f1 / 2 ^ (M - e1)). set (B := sig2 (cF c) f2 / 2 ^ (M - e2)).
  rewrite (addfrac_comm (a <? 0) (b <? 0) A B).
  destruct (Z.eq_dec A B) as [EQ|NE]; [|rewrite (addneg_comm (a <? 0)) by assumption; reflexivity].
  destruct (Bool.bool_dec (a <? 0) (b <? 0)) as [SS|OS].
  - rewrite SS, !addneg_same. reflexivity.
  - assert (Z0 : addfrac (a <? 0) (b <? 0) A B = 0).
    { unfold addfrac. rewrite EQ. destruct (a <? 0), (b <? 0); cbn [Bool.eqb]; try congruence; lia. }
    rewrite Z0, !norm_zero. reflexivity.
Qed.

Lemma p_add_opp_reg : p_add c (- a) (- b) = rmap Z.opp (p_add c a b).
Proof using V X Ra Rb Na Nb.
  rewrite !p_add_unfold by lia.
  destruct (unpack_reg c a V Ra Na) as [e1 [f1 [E1 [H1 B1]]]].
  destruct (unpack_reg c b V Rb Nb) as [e2 [f2 [E2 [H2 B2]]]].
  rewrite (unpack_opp c a e1 f1 V Ra Na E1), (unpack_opp c b e2 f2 V Rb Nb E2).
  rewrite E1, E2. cbn [bind]. vcb V. pose proof (E_room c V). destruct (emax_bound c V) as [M1 M2].
  destruct (Z_lt_le_dec (Z.abs (e1 - e2)) (pw (cF c))) as [D|D].
  2: { rewrite !u_add_ub; try assumption; try reflexivity; try (apply vc_F, V); try (apply c_E_width, V); lia. }
  rewrite !(u_add_eq _ _ _ _ e1 e2); try assumption; try (apply vc_F, V); try (apply c_E_width, V); try lia.
  set (M := Z.max e1 e2).
  set (A := sig2 (cF c) f1 / 2 ^ (M - e1)). set (B := sig2 (cF c) f2 / 2 ^ (M - e2)).
  rewrite addfrac_neg.
  destruct (Z.eq_dec (addfrac (a <? 0) (b <? 0) A B) 0) as [Z0|NZ]; [rewrite Z0, !norm_zero; reflexivity|].
  assert (EN : addneg (negb (a <? 0)) (negb (b <? 0)) A B = negb (addneg (a <? 0) (b <? 0) A B)).
  { destruct (Bool.bool_dec (a <? 0) (b <? 0)) as [SS|OS].
    - rewrite SS, !addneg_same. reflexivity.
    - apply addneg_neg. intros EQ. apply NZ. unfold addfrac. rewrite EQ.
      destruct (a <? 0), (b <? 0); cbn [Bool.eqb]; try congruence; lia. }
  rewrite EN, norm_sign by assumption.
  destruct (u_normalized _ _ _) as [u|] eqn:EU; cbn [bind rmap]; [|reflexivity].
  apply norm_form in EU; [|assumption|apply vc_F, V]. destruct EU as [e' [f' [-> Hf']]].
  cbn [uneg uexp ufrac]. apply pack_opp; assumption.
Qed.
End Regs.

Lemma p_add_comm c a b : valid_cfg c -> pattern c a -> pattern c b -> ~ is_nan c a -> ~ is_nan c b ->
  p_add c a b = p_add c b a.
Proof.
  intros V Pa Pb Na Nb.
  destruct (Z.eq_dec a 0) as [->|ZA].
  { unfold p_add, iszero. cbn [Z.eqb]. destruct (Z.eqb_spec b 0) as [->|]; reflexivity. }
  destruct (Z.eq_dec b 0) as [->|ZB].
  { unfold p_add, iszero. cbn [Z.eqb]. destruct (Z.eqb_spec a 0) as [->|]; reflexivity. }
  destruct (unpack_kind c a V Pa) as [[I _]|[[I E]|[[I _]|[R [NZ _]]]]]; try contradiction;
  destruct (unpack_kind c b V Pb) as [[I' _]|[[I' E']|[[I' _]|[R' [NZ' _]]]]]; try contradiction.
  - destruct (csp c) eqn:SP; [destruct I as [[S _]|[[S _]|[S _]]]; congruence| |].
    + destruct I as [[S _]|[[S _]|[_ ->]]]; try congruence.
      destruct I' as [[S _]|[[S _]|[_ ->]]]; try congruence.
    + destruct I as [I|[I|[S _]]]; [| |congruence]; (destruct I' as [I'|[I'|[S _]]]; [| |congruence]).
      * destruct I as [_ ->], I' as [_ ->]. reflexivity.
      * destruct (add_inf_opp c a b V I I') as [-> ->]. reflexivity.
      * destruct (add_inf_opp c b a V I' I) as [-> ->]. reflexivity.
      * destruct I as [_ ->], I' as [_ ->]. reflexivity.
  - destruct (add_inf_l c a b V I R') as [-> ->]. reflexivity.
  - destruct (add_inf_l c b a V I' R) as [-> ->]. reflexivity.
  - apply p_add_comm_reg; assumption.
Qed.

Lemma u_mul_comm F E a b : is_width F -> u_isNaN a = false -> u_isNaN b = false ->
  u_mul F E a b = u_mul F E b a.
Proof.
  intros WF A B. unfold u_mul. rewrite A, B. cbn [orb].
  destruct a as [ta na ea fa], b as [tb nb eb fb]. cbn [utyp uneg uexp ufrac].
  rewrite (xorb_comm nb na).
  destruct ta, tb; try reflexivity.
  assert (IW : iw (pF F) = pw F) by (apply iw_prom_uint; assumption). pose proof (is_width_pos F WF).
  rewrite !cshr_ok by (rewrite IW; unfold pw; lia). cbn [bind].
  set (x := cast _ (cor _ (fa / 2 ^ 1))). set (y := cast _ (cor _ (fb / 2 ^ 1))).
  assert (XM : extramul F y x = extramul F x y) by (unfold extramul, cmul; rewrite Z.mul_comm; reflexivity).
  rewrite XM. destruct (extramul F x y); cbn [bind]; [|reflexivity].
  destruct (cshr _ _ _); cbn [bind]; [|reflexivity].
  match goal with |- context [bind (if ?q then ?s else ?t)] => destruct (if q then s else t) end; cbn [bind]; [|reflexivity].
  unfold cadd. rewrite (Z.add_comm eb ea). reflexivity.
Qed.

Lemma p_mul_comm c a b : valid_cfg c -> pattern c a -> pattern c b -> ~ is_nan c a -> ~ is_nan c b ->
  p_mul c a b = p_mul c b a.
Proof.
  intros V Pa Pb Na Nb. unfold p_mul.
  assert (K : forall v, pattern c v -> ~ is_nan c v -> exists u, unpack c v = Ok u /\ u_isNaN u = false).
  { intros v Pv Nv. destruct (unpack_kind c v V Pv) as [[I _]|[[I E]|[[I E]|[R [NZ [e [f [E _]]]]]]]];
      [contradiction| | |]; rewrite E; eexists; split; reflexivity. }
  destruct (K a Pa Na) as [ua [-> Ia]]. destruct (K b Pb Nb) as [ub [-> Ib]]. cbn [bind].
  rewrite u_mul_comm by (try assumption; apply vc_F, V). reflexivity.
Qed.

(** ** Sign symmetry *)
Lemma outcome_opp c x y o o' : valid_cfg c ->
  (forall r, o = Ok r -> rounds_tz c x r) -> (forall r, o' = Ok r -> rounds_tz c y r) ->
  ((room c x -> exists r, o = Ok r) /\ (~ room c x -> o = UB ShiftCount)) ->
  ((room c y -> exists r, o' = Ok r) /\ (~ room c y -> o' = UB ShiftCount)) ->
  (y == - x)%Q -> o' = rmap Z.opp o.
Proof.
  intros V R R' [D U] [D' U'] E. vcb V.
  assert (RX : room c y <-> room c x).
  { split; intros H.
    - apply room_opp in H. eapply room_comp; [|exact H]. rewrite E. ring.
    - apply room_opp in H. eapply room_comp; [|exact H]. rewrite E. ring. }
  destruct o as [r|u] eqn:EO.
  - destruct o' as [r'|u'] eqn:EO'.
    + cbn [rmap]. f_equal. apply (rounds_tz_unique c BN Bes y); [auto|].
      eapply rounds_tz_comp; try assumption; [symmetry; exact E|]. apply rounds_tz_opp; auto.
    + exfalso. assert (N : ~ room c x) by (rewrite <- RX; intros H; destruct (D' H); discriminate).
      specialize (U N). discriminate.
  - assert (N : ~ room c x) by (intros H; destruct (D H); discriminate).
    specialize (U N). injection U as ->. rewrite <- RX in N. rewrite (U' N). reflexivity.
Qed.

Lemma p_mul_opp_l c a b : valid_cfg c -> exp_ok c -> mul_fits c -> real c a -> real c b ->
  p_mul c (- a) b = rmap Z.opp (p_mul c a b).
Proof.
  intros V X MF Ra Rb.
  apply (outcome_opp c (value c a * value c b) (value c (- a) * value c b)); try assumption.
  - intros r. apply p_mul_rounds; assumption.
  - intros r. apply p_mul_rounds; try assumption. apply ropp, Ra.
  - apply p_mul_room; assumption.
  - apply p_mul_room; try assumption. apply ropp, Ra.
  - rewrite vopp. ring.
Qed.
Lemma real_nn c a : valid_cfg c -> real c a -> pattern c a /\ ~ is_nan c a.
Proof.
  intros V R. vcb V. pose proof (real_bounds c BN Bes a R). split; [unfold pattern; lia|]. intros [_ E]. lia.
Qed.
Lemma p_mul_opp_r c a b : valid_cfg c -> exp_ok c -> mul_fits c -> real c a -> real c b ->
  p_mul c a (- b) = rmap Z.opp (p_mul c a b).
Proof.
  intros V X MF Ra Rb. destruct (real_nn c a V Ra). destruct (real_nn c b V Rb).
  destruct (real_nn c (- b) V (ropp c b Rb)).
  rewrite (p_mul_comm c a (- b)), (p_mul_comm c a b) by assumption. apply p_mul_opp_l; assumption.
Qed.
Lemma p_div_opp_l c a b : valid_cfg c -> exp_ok c -> mul_fits c -> real c a -> real c b -> b <> 0 ->
  p_div c (- a) b = rmap Z.opp (p_div c a b).
Proof.
  intros V X MF Ra Rb Nb.
  assert (NZ : ~ (value c b == 0)%Q) by (apply value_nz; assumption).
  apply (outcome_opp c (value c a / value c b) (value c (- a) / value c b)); try assumption.
  - intros r. apply p_div_rounds; assumption.
  - intros r. apply p_div_rounds; try assumption. apply ropp, Ra.
  - apply p_div_room; assumption.
  - apply p_div_room; try assumption. apply ropp, Ra.
  - rewrite vopp. field. assumption.
Qed.
Lemma p_div_opp_r c a b : valid_cfg c -> exp_ok c -> mul_fits c -> real c a -> real c b -> b <> 0 ->
  p_div c a (- b) = rmap Z.opp (p_div c a b).
Proof.
  intros V X MF Ra Rb Nb.
  assert (NZ : ~ (value c b == 0)%Q) by (apply value_nz; assumption).
  apply (outcome_opp c (value c a / value c b) (value c a / value c (- b))); try assumption.
  - intros r. apply p_div_rounds; assumption.
  - intros r. apply p_div_rounds; try assumption; [apply ropp, Rb|lia].
  - apply p_div_room; assumption.
  - apply p_div_room; try assumption; [apply ropp, Rb|lia].
  - rewrite vopp. field. assumption.
Qed.
Lemma p_add_opp c a b : valid_cfg c -> exp_ok c -> real c a -> real c b ->
  p_add c (- a) (- b) = rmap Z.opp (p_add c a b).
Proof.
  intros V X Ra Rb. destruct (Z.eq_dec a 0) as [->|Na]; [reflexivity|].
  destruct (Z.eq_dec b 0) as [->|Nb].
  - unfold p_add, iszero. cbn [Z.opp Z.eqb]. destruct (Z.eqb_spec a 0), (Z.eqb_spec (- a) 0); try lia; reflexivity.
  - apply p_add_opp_reg; assumption.
Qed.

(** ** Monotonicity *)
Lemma down_pos_mono c x y r s : valid_cfg c -> (x <= y)%Q -> down_pos c x r -> down_pos c y s -> r <= s.
Proof.
  intros V L [Rr [Pr [Mr Dr]]] [Rs [Ps [Ms Ds]]]. vcb V.
  apply (value_le_inv c BN Bes); try (apply real_bounds; assumption).
  destruct Dr as [Dr|Dr]; [|apply Dr; assumption]. apply Ms; try assumption. lra.
Qed.
Lemma rounds_tz_mono c x y r s : valid_cfg c -> (x <= y)%Q -> rounds_tz c x r -> rounds_tz c y s -> r <= s.
Proof.
  intros V L A B.
  pose proof (rounds_sign_ok c x r V A) as [A1 [A2 A3]]. pose proof (rounds_sign_ok c y s V B) as [B1 [B2 B3]].
  destruct A as [[A ->]|[[A D]|[A D]]]; destruct B as [[B ->]|[[B D']|[B D']]]; try lra; try lia.
  - assert (0 < s) by (apply B2; assumption). lia.
  - eapply down_pos_mono; eassumption.
  - assert (r < 0) by (apply A3; assumption). lia.
  - assert (r < 0) by (apply A3; assumption). assert (0 < s) by (apply B2; assumption). lia.
  - assert (- s <= - r); [|lia]. apply (down_pos_mono c (- y) (- x)); try assumption. lra.
Qed.
Lemma real_value_le c a b : valid_cfg c -> real c a -> real c b -> a <= b -> (value c a <= value c b)%Q.
Proof.
  intros V Ra Rb L. vcb V. pose proof (real_bounds c BN Bes a Ra). pose proof (real_bounds c BN Bes b Rb).
  apply (value_le c BN Bes); lia.
Qed.
Lemma real_value_pos c a : valid_cfg c -> real c a -> 0 < a -> (0 < value c a)%Q.
Proof. intros V R L. apply value_sign; assumption. Qed.

Lemma p_mul_mono c a b d r s : valid_cfg c -> exp_ok c -> mul_fits c -> real c a -> real c b -> real c d ->
  0 < d -> a <= b -> p_mul c a d = Ok r -> p_mul c b d = Ok s -> r <= s.
Proof.
  intros V X MF Ra Rb Rd P L E1 E2. pose proof (real_value_le c a b V Ra Rb L). pose proof (real_value_pos c d V Rd P).
  eapply (rounds_tz_mono c (value c a * value c d) (value c b * value c d)); try assumption;
    [|apply p_mul_rounds; assumption|apply p_mul_rounds; assumption].
  apply Qmult_le_compat_r; lra.
Qed.
Lemma p_div_mono c a b d r s : valid_cfg c -> exp_ok c -> mul_fits c -> real c a -> real c b -> real c d ->
  0 < d -> a <= b -> p_div c a d = Ok r -> p_div c b d = Ok s -> r <= s.
Proof.
  intros V X MF Ra Rb Rd P L E1 E2. pose proof (real_value_le c a b V Ra Rb L). pose proof (real_value_pos c d V Rd P).
  eapply (rounds_tz_mono c (value c a / value c d) (value c b / value c d)); try assumption;
    [|apply p_div_rounds; try assumption; lia|apply p_div_rounds; try assumption; lia].
  unfold Qdiv. apply Qmult_le_compat_r; [lra|]. apply Qlt_le_weak, Qinv_lt_0_compat. assumption.
Qed.
Lemma p_add_mono c a b d r s : valid_cfg c -> exp_ok c -> mul_fits c -> real c a -> real c b -> real c d ->
  (0 <= a /\ 0 <= b /\ 0 <= d \/ a <= 0 /\ b <= 0 /\ d <= 0) ->
  a <= b -> p_add c a d = Ok r -> p_add c b d = Ok s -> r <= s.
Proof.
  intros V X MF Ra Rb Rd SS L E1 E2. pose proof (real_value_le c a b V Ra Rb L).
  eapply (rounds_tz_mono c (value c a + value c d) (value c b + value c d)); try assumption;
    [|apply p_add_same_rounds; try assumption; lia|apply p_add_same_rounds; try assumption; lia].
  lra.
Qed.

(** ** Neutral and absorbing elements *)
Lemma pow_split c : valid_cfg c -> 2 ^ (cN c - 1) = 2 * 2 ^ (cN c - 2) /\ 2 <= 2 ^ (cN c - 2).
Proof.
  intros V. vcb V. split.
  - replace (cN c - 1) with (cN c - 2 + 1) by lia. apply pow2_S. lia.
  - change 2 with (2 ^ 1) at 1. apply pow2_mono. lia.
Qed.
Lemma one_val c : valid_cfg c -> p_one c = 2 ^ (cN c - 2).
Proof.
  intros V. vcb V. unfold p_one, deep. rewrite P_ONE_val by assumption. unfold tS.
  destruct (pow_split c V). pose proof (pwH_bound c V). apply cast_s_small; lia.
Qed.
Lemma one_real c : valid_cfg c -> real c (2 ^ (cN c - 2)).
Proof.
  intros V. destruct (pow_split c V). unfold real, maxreal. destruct (csp c); lia.
Qed.
Lemma one_value c : valid_cfg c -> (value c (2 ^ (cN c - 2)) == 1)%Q.
Proof.
  intros V. vcb V. destruct (pow_split c V) as [P1 P2].
  rewrite (value_pos_lval c BN Bes) by lia.
  assert (P0 : base (cN c) 0 = 2 ^ (cN c - 2)) by (unfold base; cbn [Z.leb Z.compare]; replace (cN c - 2 - 0) with (cN c - 2) by lia; lia).
  assert (PD : pdec (cN c) (2 ^ (cN c - 2)) = 0).
  { assert (R0 : reg (cN c) (2 ^ (cN c - 2)) = 0).
    { apply reg_unique; [assumption|unfold inreg; lia|]. rewrite P0.
      pose proof (cnt_pos (cN c) BN 0 ltac:(unfold inreg; lia)). lia. }
    unfold pdec. rewrite R0, P0. rewrite Z.sub_diag. rewrite ?Z.mul_0_l. reflexivity. }
  rewrite PD. pose proof (gran_nonneg c BN Bes). change 0 with (0 * 2 ^ gran c). rewrite lval_pow2 by assumption. reflexivity.
Qed.

Section Neutral.
Variables (c : cfg) (x : Z).
Hypothesis (V : valid_cfg c) (X : exp_ok c) (MF : mul_fits c) (R : real c x).

Lemma room_value_Ok y : (y == value c x)%Q -> room c (value c x) -> room c y.
Proof using. intros E H. eapply room_comp; [symmetry; exact E|assumption]. Qed.

Lemma exact_outcome o y v : (y == value c v)%Q -> real c v ->
  (forall r, o = Ok r -> rounds_tz c y r) -> (room c y -> exists r, o = Ok r) ->
  (forall r, o = Ok r -> r = v) /\ (room c (value c v) -> o = Ok v).
Proof using V.
  intros E Rv RO D. vcb V.
  assert (A : forall r, o = Ok r -> r = v).
  { intros r H. apply (rounds_tz_unique c BN Bes y); [auto|].
    eapply rounds_tz_comp; try assumption; [symmetry; exact E|]. apply rounds_tz_exact; assumption. }
  split; [assumption|]. intros Rm. destruct D as [r Hr]; [eapply room_comp; [symmetry; exact E|assumption]|].
  rewrite Hr, (A r Hr). reflexivity.
Qed.

Lemma mul_one_r : (forall r, p_mul c x (p_one c) = Ok r -> r = x) /\ (room c (value c x) -> p_mul c x (p_one c) = Ok x).
Proof using V X MF R.
  rewrite one_val by assumption. pose proof (one_real c V).
  apply (exact_outcome _ (value c x * value c (2 ^ (cN c - 2)))); try assumption.
  - rewrite one_value by assumption. ring.
  - intros r. apply p_mul_rounds; assumption.
  - apply p_mul_room; assumption.
Qed.
Lemma mul_one_l : (forall r, p_mul c (p_one c) x = Ok r -> r = x) /\ (room c (value c x) -> p_mul c (p_one c) x = Ok x).
Proof using V X MF R.
  rewrite one_val by assumption. pose proof (one_real c V).
  apply (exact_outcome _ (value c (2 ^ (cN c - 2)) * value c x)); try assumption.
  - rewrite one_value by assumption. ring.
  - intros r. apply p_mul_rounds; assumption.
  - apply p_mul_room; assumption.
Qed.
Lemma div_one : (forall r, p_div c x (p_one c) = Ok r -> r = x) /\ (room c (value c x) -> p_div c x (p_one c) = Ok x).
Proof using V X MF R.
  rewrite one_val by assumption. pose proof (one_real c V). destruct (pow_split c V).
  apply (exact_outcome _ (value c x / value c (2 ^ (cN c - 2)))); try assumption.
  - rewrite one_value by assumption. field.
  - intros r. apply p_div_rounds; try assumption. lia.
  - apply p_div_room; try assumption. lia.
Qed.
Lemma mone_val : p_mone c = - 2 ^ (cN c - 2).
Proof using V.
  vcb V. unfold p_mone, deep, P_MONE. rewrite P_ONE_val by assumption. unfold tS. destruct (pow_split c V).
  pose proof (pwH_bound c V). rewrite !cast_s_small by (rewrite ?cast_s_small by lia; lia). reflexivity.
Qed.
Lemma mul_mone : (forall r, p_mul c x (p_mone c) = Ok r -> r = - x) /\ (room c (value c x) -> p_mul c x (p_mone c) = Ok (- x)).
Proof using V X MF R.
  rewrite mone_val. pose proof (one_real c V). rewrite <- (one_val c V).
  rewrite one_val by assumption. rewrite p_mul_opp_r by assumption.
  rewrite <- (one_val c V). destruct mul_one_r as [A B]. split.
  - intros r H1. destruct (p_mul c x (p_one c)) as [r'|]; [|discriminate]. cbn [rmap] in H1. injection H1 as <-.
    rewrite (A r'); reflexivity.
  - intros Rm. rewrite (B Rm). reflexivity.
Qed.
Lemma div_self : x <> 0 -> (forall r, p_div c x x = Ok r -> r = p_one c) /\ p_div c x x = Ok (p_one c).
Proof using V X MF R.
  intros NZ. rewrite one_val by assumption. pose proof (one_real c V). vcb V.
  assert (NV : ~ (value c x == 0)%Q) by (apply value_nz; assumption).
  assert (E : (value c x / value c x == value c (2 ^ (cN c - 2)))%Q) by (rewrite one_value by assumption; field; assumption).
  destruct (exact_outcome (p_div c x x) (value c x / value c x) (2 ^ (cN c - 2))) as [A B]; try assumption.
  - intros r. apply p_div_rounds; assumption.
  - apply p_div_room; assumption.
  - split; [assumption|]. apply B. right. exists 0. split.
    + unfold scale. rewrite one_value by assumption. split; [apply Qle_refl|reflexivity].
    + unfold pack_room. pow_pos 2 (ces c).
      assert (MK : 0 <= maxk c) by (unfold maxk; destruct (spec_eqb _ _); lia).
      assert (Z.min (maxk c * 2 ^ ces c) (Z.max (- (cN c - 2) * 2 ^ ces c) 0) = 0) as -> by nia.
      rewrite Z.div_0_l by lia. cbn [Z.leb Z.compare].
      assert (E28 : cH c = 32 -> ces c < 29).
      { intros W. specialize (X W). destruct (Z_lt_le_dec (ces c) 29) as [|L]; [assumption|exfalso].
        pose proof (pow2_mono 29 (ces c) ltac:(lia)) as P29.
        assert (4 <= maxk c) by (unfold maxk; destruct (spec_eqb _ _); lia).
        change (2 ^ 29) with 536870912 in P29. change (2 ^ 31) with 2147483648 in X. nia. }
      destruct (vc_H _ V) as [W|[W|[W|W]]]; rewrite W in *; lia.
Qed.
Lemma mul_zero : p_mul c x 0 = Ok 0 /\ p_mul c 0 x = Ok 0.
Proof using V R.
  pose proof (unpack_zero c V) as E0. unfold p_mul. destruct (Z.eq_dec x 0) as [->|NZ].
  - rewrite E0. split; reflexivity.
  - destruct (unpack_reg c x V R NZ) as [e [f [E _]]]. rewrite E, E0. split; reflexivity.
Qed.
Lemma add_zero : p_add c x 0 = Ok x /\ p_add c 0 x = Ok x /\ p_sub c x 0 = Ok x.
Proof using V R.
  assert (A : p_add c x 0 = Ok x) by (unfold p_add, iszero; destruct (Z.eqb_spec x 0) as [->|]; reflexivity).
  split; [assumption|]. split; [reflexivity|]. rewrite p_sub_add; [assumption|assumption|].
  vcb V. pose proof (maxreal_bounds c BN Bes). unfold real. lia.
Qed.
Lemma sub_self : add_fits c -> p_sub c x x = Ok 0.
Proof using V X MF R.
  intros AF. vcb V. rewrite p_sub_add by assumption. destruct (Z.eq_dec x 0) as [->|NZ]; [reflexivity|].
  destruct (scale_of c x V (mul_fits_frac c MF) R NZ) as [e S].
  assert (S' : scale (value c (- x)) e).
  { eapply scale_comp; [symmetry; apply vopp|]. apply scale_opp. assumption. }
  assert (Rx : real c (- x)) by (apply ropp, R).
  destruct (p_add_opp_core c x (- x) V R Rx NZ ltac:(lia) e e AF) as [[E _]|[n [e' [f [J [y [E [C Vx]]]]]]]]; try assumption.
  - destruct (Z.ltb_spec x 0), (Z.ltb_spec (- x) 0); cbn; lia.
  - lia.
  - exfalso. rewrite vopp in Vx. destruct C as [Hf [HJ [_ [L _]]]].
    pose proof (lval_pos (cF c) (e' * 2 ^ cF c + f - 2 ^ J) ltac:(lia)).
    destruct n; cbn [sgq] in Vx; lra.
Qed.
End Neutral.
