(** Addition and subtraction of posits. *)
From Coq Require Import ZArith QArith Qabs Lia Lqa Bool List.
From Verif Require Import Res CInt Bits Traits Unpacked Cfg Posit Spec QPow Core SpecLemmas Arith
  DecodeProof EncodeProof UOps UAdd Ops.
Open Scope Z_scope.

Lemma uabs_scale F e f : 0 <= F -> 0 <= f < 2 ^ F -> (pow2 e <= uabs F e f)%Q /\ (uabs F e f < pow2 (e + 1))%Q.
Proof.
  intros HF Hf. unfold uabs.
  assert (E : forall k, 0 <= k -> (pow2 (e + k) == dy (2 ^ F * 2 ^ k) (e - F))%Q).
  { intros k K. rewrite <- Z.pow_add_r by lia. rewrite <- (Z.mul_1_l (2 ^ (F + k))), dy_pow by lia.
    unfold dy. replace (e - F + (F + k)) with (e + k) by lia. ring. }
  split.
  - rewrite <- (Z.add_0_r e) at 1. rewrite E by lia. apply dy_le. change (2 ^ 0) with 1. lia.
  - rewrite E by lia. apply dy_lt. change (2 ^ 1) with 2. lia.
Qed.

Lemma uval_scale F n e f : 0 <= F -> 0 <= f < 2 ^ F -> scale (uval F n e f) e.
Proof.
  intros HF Hf. destruct (uabs_scale F e f HF Hf) as [A B]. pose proof (pow2_pos e).
  unfold scale, uval. destruct n; [rewrite Qabs_opp|]; rewrite Qabs_pos by lra; auto.
Qed.

Lemma scale_unique x e e' : scale x e -> scale x e' -> e = e'.
Proof.
  intros [A B] [A' B'].
  assert (e < e' + 1) by (apply pow2_lt_inv; lra). assert (e' < e + 1) by (apply pow2_lt_inv; lra). lia.
Qed.

Lemma scale_comp x y e : (x == y)%Q -> scale x e -> scale y e.
Proof. intros E [A B]. unfold scale. rewrite <- E. auto. Qed.

Lemma unpack_scale c v e : valid_cfg c -> frac_fits c -> real c v -> v <> 0 -> scale (value c v) e ->
  exists f, unpack c v = Ok (U Regular (v <? 0) e f).
Proof.
  intros V FF R NZ S. vcb V. unfold frac_fits in FF.
  destruct (unpack_real c v 0 V ltac:(lia)) as [e' [f [U1 [Hf [He [_ Vv]]]]]]; try assumption;
    [rewrite gran_val; lia|].
  exists f. rewrite U1. f_equal. f_equal.
  apply (scale_unique (value c v)); [|assumption].
  eapply scale_comp; [symmetry; exact Vv|]. apply uval_scale; [lia|assumption].
Qed.

Lemma E_room c : valid_cfg c -> emax c + cF c < 2 ^ (c_E c - 1).
Proof.
  intros V. vcb V. destruct (emax_bound c V) as [M1 M2].
  pose proof (is_width_pos _ (c_E_width c V)) as BE.
  assert (2 ^ 7 <= 2 ^ (c_E c - 1)) by (apply pow2_mono; lia). change (2 ^ 7) with 128 in *. lia.
Qed.

Lemma sgq_add n x y : (sgq n x + sgq n y == sgq n (x + y))%Q.
Proof. destruct n; cbn [sgq]; ring. Qed.

Lemma p_add_unfold c a b : a <> 0 -> b <> 0 ->
  p_add c a b = (let! ua := unpack c a in let! ub := unpack c b in
                 let! r := u_add (cF c) (c_E c) ua ub in pack_posit c r).
Proof.
  intros Na Nb. unfold p_add, iszero.
  destruct (Z.eqb_spec a 0); [contradiction|]. destruct (Z.eqb_spec b 0); [contradiction|]. reflexivity.
Qed.

Section Add.
Variables (c : cfg) (a b : Z).
Hypothesis (V : valid_cfg c) (X : exp_ok c).
Hypothesis (Ra : real c a) (Rb : real c b) (Na : a <> 0) (Nb : b <> 0).

(** Undefined exactly when the scales are too far apart (packing aside). *)
Lemma p_add_far ea eb : frac_fits c -> scale (value c a) ea -> scale (value c b) eb ->
  Z.max 32 (cF c) <= Z.abs (ea - eb) -> p_add c a b = UB ShiftCount.
Proof using V Ra Rb Na Nb.
  intros FF Sa Sb D. vcb V. rewrite p_add_unfold by assumption. unfold frac_fits in FF.
  destruct (unpack_real c a 0 V ltac:(lia)) as [e1 [f1 [U1 [H1 [E1 [_ V1]]]]]]; try assumption; [rewrite gran_val; lia|].
  destruct (unpack_real c b 0 V ltac:(lia)) as [e2 [f2 [U2 [H2 [E2 [_ V2]]]]]]; try assumption; [rewrite gran_val; lia|].
  assert (e1 = ea).
  { apply (scale_unique (value c a)); [|assumption]. eapply scale_comp; [symmetry; exact V1|].
    apply uval_scale; [lia|assumption]. }
  assert (e2 = eb).
  { apply (scale_unique (value c b)); [|assumption]. eapply scale_comp; [symmetry; exact V2|].
    apply uval_scale; [lia|assumption]. }
  subst e1 e2. rewrite U1, U2. cbn [bind].
  pose proof (E_room c V). destruct (emax_bound c V) as [M1 M2].
  rewrite u_add_ub; try assumption; try lia; [reflexivity|apply vc_F; assumption|apply c_E_width; assumption].
Qed.

Lemma p_add_same_core ea eb : mul_fits c -> (a <? 0) = (b <? 0) ->
  scale (value c a) ea -> scale (value c b) eb -> Z.abs (ea - eb) < Z.max 32 (cF c) ->
  exists n e f j x, p_add c a b = pack_posit c (U Regular n e f) /\ 1 <= j <= 2 /\
    cell (cF c) e f j x /\ (value c a + value c b == sgq n x)%Q.
Proof using V Ra Rb Na Nb.
  intros MF SS Sa Sb D. vcb V. rewrite p_add_unfold by assumption.
  unfold mul_fits in MF. rewrite <- gran_val in MF.
  destruct (unpack_real c a 2 V ltac:(lia) MF Ra Na) as [e1 [f1 [U1 [H1 [E1 [M1 V1]]]]]].
  destruct (unpack_real c b 2 V ltac:(lia) MF Rb Nb) as [e2 [f2 [U2 [H2 [E2 [M2 V2]]]]]].
  assert (e1 = ea).
  { apply (scale_unique (value c a)); [|assumption]. eapply scale_comp; [symmetry; exact V1|].
    apply uval_scale; [lia|assumption]. }
  assert (e2 = eb).
  { apply (scale_unique (value c b)); [|assumption]. eapply scale_comp; [symmetry; exact V2|].
    apply uval_scale; [lia|assumption]. }
  subst e1 e2. rewrite U1, U2, SS. cbn [bind]. rewrite SS in V1.
  pose proof (E_room c V). destruct (emax_bound c V) as [B1 B2].
  destruct (u_add_same (cF c) (c_E c) (b <? 0) ea eb f1 f2) as [e [f [j [-> [J [_ C]]]]]];
    try assumption; try lia; [apply vc_F; assumption|apply c_E_width; assumption|].
  cbn [bind]. exists (b <? 0), e, f, j. eexists. split; [reflexivity|]. split; [assumption|].
  split; [exact C|]. rewrite V1, V2, !uval_abs. apply sgq_add.
Qed.

Lemma p_add_opp_core ea eb : add_fits c -> (b <? 0) = negb (a <? 0) ->
  scale (value c a) ea -> scale (value c b) eb -> Z.abs (ea - eb) < Z.max 32 (cF c) ->
  (p_add c a b = Ok 0 /\ (value c a + value c b == 0)%Q) \/
  exists n e f J x, p_add c a b = pack_posit c (U Regular n e f) /\
    cellb (cF c) e f J x /\ (value c a + value c b == sgq n x)%Q.
Proof using V Ra Rb Na Nb.
  intros [MF M16] SS Sa Sb D. vcb V. rewrite p_add_unfold by assumption.
  rewrite <- gran_val in MF, M16.
  destruct (unpack_real c a 3 V ltac:(lia) MF Ra Na) as [e1 [f1 [U1 [H1 [E1 [M1 V1]]]]]].
  destruct (unpack_real c b 3 V ltac:(lia) MF Rb Nb) as [e2 [f2 [U2 [H2 [E2 [M2 V2]]]]]].
  assert (MM : cF c < 32 \/ f1 mod 16 = 0 /\ f2 mod 16 = 0).
  { destruct M16 as [|M16]; [left; assumption|right].
    destruct (unpack_real c a 4 V ltac:(lia) M16 Ra Na) as [e1' [f1' [U1' [_ [_ [M1' _]]]]]].
    destruct (unpack_real c b 4 V ltac:(lia) M16 Rb Nb) as [e2' [f2' [U2' [_ [_ [M2' _]]]]]].
    rewrite U1 in U1'. injection U1' as _ <-. rewrite U2 in U2'. injection U2' as _ <-. auto. }
  assert (e1 = ea).
  { apply (scale_unique (value c a)); [|assumption]. eapply scale_comp; [symmetry; exact V1|].
    apply uval_scale; [lia|assumption]. }
  assert (e2 = eb).
  { apply (scale_unique (value c b)); [|assumption]. eapply scale_comp; [symmetry; exact V2|].
    apply uval_scale; [lia|assumption]. }
  subst e1 e2. rewrite U1, U2, SS. cbn [bind]. rewrite SS in V2.
  pose proof (E_room c V). destruct (emax_bound c V) as [B1 B2].
  destruct (u_add_opp (cF c) (c_E c) (a <? 0) ea eb f1 f2) as [[-> EQ]|[n [e [f [J [x [-> [_ [C VX]]]]]]]]];
    try assumption; try lia; [apply vc_F; assumption|apply c_E_width; assumption| |].
  - left. cbn [bind]. split; [reflexivity|]. rewrite V1, V2. unfold uval.
    destruct (a <? 0); cbn [negb]; rewrite EQ; ring.
  - right. cbn [bind]. exists n, e, f, J, x. split; [reflexivity|]. split; [assumption|].
    rewrite V1, V2, VX. destruct n; reflexivity.
Qed.
End Add.

Lemma scale_of c v : valid_cfg c -> frac_fits c -> real c v -> v <> 0 -> exists e, scale (value c v) e.
Proof.
  intros V FF R NZ. vcb V. unfold frac_fits in FF.
  destruct (unpack_real c v 0 V ltac:(lia)) as [e [f [U1 [Hf [_ [_ Vv]]]]]]; try assumption; [rewrite gran_val; lia|].
  exists e. eapply scale_comp; [symmetry; exact Vv|]. apply uval_scale; [lia|assumption].
Qed.

Lemma value_sign c v : valid_cfg c -> real c v -> (v < 0 <-> (value c v < 0)%Q) /\ (0 < v <-> (0 < value c v)%Q).
Proof.
  intros V R. vcb V. pose proof (real_bounds c BN Bes v R) as B.
  destruct (Z.lt_trichotomy v 0) as [L|[->|L]].
  - pose proof (value_lt c BN Bes v 0 ltac:(lia) L ltac:(lia)) as Q. rewrite v0 in Q. split; split; intros; try lia; lra.
  - rewrite v0. split; split; intros; try lia; lra.
  - pose proof (value_lt c BN Bes 0 v ltac:(lia) L ltac:(lia)) as Q. rewrite v0 in Q. split; split; intros; try lia; lra.
Qed.

Lemma rounds_sign c x v : valid_cfg c -> rounds_tz c x v -> (v = 0 <-> (x == 0)%Q) /\ (0 < v <-> (0 < x)%Q).
Proof.
  intros V [[E ->]|[[P D]|[P D]]]; vcb V.
  - split; split; intros; try lia; try assumption; lra.
  - destruct (down_pos_elim c BN Bes x v D) as [B _]. split; split; intros; try lia; lra.
  - destruct (down_pos_elim c BN Bes _ _ D) as [B _]. split; split; intros; try lia; lra.
Qed.

Lemma same_sign_bool a b : a <> 0 -> b <> 0 -> (0 <= a /\ 0 <= b \/ a <= 0 /\ b <= 0) -> (a <? 0) = (b <? 0).
Proof. intros. destruct (Z.ltb_spec a 0), (Z.ltb_spec b 0); lia. Qed.

(** Same sign: truncation. *)
Lemma p_add_same_rounds c a b r : valid_cfg c -> exp_ok c -> mul_fits c -> real c a -> real c b ->
  (0 <= a /\ 0 <= b \/ a <= 0 /\ b <= 0) ->
  p_add c a b = Ok r -> rounds_tz c (value c a + value c b) r.
Proof.
  intros V X MF Ra Rb SS P. vcb V.
  destruct (Z.eq_dec a 0) as [->|Na].
  { cbn in P. injection P as <-. eapply rounds_tz_comp; try assumption; [|apply rounds_tz_exact; assumption].
    rewrite v0. ring. }
  destruct (Z.eq_dec b 0) as [->|Nb].
  { unfold p_add, iszero in P. destruct (Z.eqb_spec a 0); [contradiction|]. cbn in P. injection P as <-.
    eapply rounds_tz_comp; try assumption; [|apply rounds_tz_exact; assumption]. rewrite v0. ring. }
  assert (FF : frac_fits c) by (unfold frac_fits, mul_fits in *; lia).
  destruct (scale_of c a V FF Ra Na) as [ea Sa]. destruct (scale_of c b V FF Rb Nb) as [eb Sb].
  destruct (Z_lt_le_dec (Z.abs (ea - eb)) (Z.max 32 (cF c))) as [D|D].
  - destruct (p_add_same_core c a b V Ra Rb Na Nb ea eb MF (same_sign_bool _ _ Na Nb SS) Sa Sb D)
      as [n [e [f [j [x [E [J [C Vx]]]]]]]].
    rewrite E in P. eapply rounds_tz_comp; try assumption; [symmetry; exact Vx|].
    eapply (cell_rounds c n e f j); try eassumption. unfold mul_fits in MF. rewrite gran_val. lia.
  - rewrite (p_add_far c a b V Ra Rb Na Nb ea eb) in P by assumption. discriminate.
Qed.

Lemma rounds_sign_ok c x v : valid_cfg c -> rounds_tz c x v -> sign_ok x v.
Proof.
  intros V R. destruct (rounds_sign c x v V R) as [A B]. split; [assumption|]. split; [assumption|].
  split; intros H.
  - destruct (Qlt_le_dec x 0) as [|L]; [assumption|exfalso].
    apply Qle_lteq in L. destruct L as [L|L]; [apply B in L; lia|symmetry in L; apply A in L; lia].
  - destruct (Z.lt_trichotomy v 0) as [|[E|E]]; [assumption|apply A in E; lra|apply B in E; lra].
Qed.

Lemma cellb_sign c n e f J x r : valid_cfg c -> exp_ok c -> cellb (cF c) e f J x ->
  pack_posit c (U Regular n e f) = Ok r -> sign_ok (sgq n x) r.
Proof.
  intros V X [Hf [HJ [M [C1 C2]]]] P. vcb V.
  destruct (pack_selects c n e f r V X Hf P) as [v [-> [S _]]].
  pose proof (lval_pos (cF c) (e * 2 ^ cF c + f - 2 ^ J) ltac:(lia)).
  unfold sign_ok, sg, sgq. destruct n; (split; [|split]); split; intros; try lia; try lra.
Qed.

(** Any signs: faithful, with the right sign. *)
Lemma p_add_faithful c a b r : valid_cfg c -> exp_ok c -> add_fits c -> real c a -> real c b ->
  p_add c a b = Ok r ->
  faithful c (value c a + value c b) r /\ sign_ok (value c a + value c b) r.
Proof.
  intros V X AF Ra Rb P. vcb V. assert (MF : mul_fits c) by (unfold add_fits, mul_fits in *; lia).
  assert (SAME : (0 <= a /\ 0 <= b \/ a <= 0 /\ b <= 0) ->
    faithful c (value c a + value c b) r /\ sign_ok (value c a + value c b) r).
  { intros SS. pose proof (p_add_same_rounds c a b r V X MF Ra Rb SS P) as R.
    split; [apply rounds_faithful; assumption|eapply rounds_sign_ok; eassumption]. }
  assert (DEC : (0 <= a /\ 0 <= b \/ a <= 0 /\ b <= 0) \/ (a < 0 /\ 0 < b \/ 0 < a /\ b < 0)) by lia.
  destruct DEC as [SS|OS]; [auto|]. clear SAME.
  assert (Na : a <> 0) by lia. assert (Nb : b <> 0) by lia.
  assert (FF : frac_fits c) by (unfold frac_fits, mul_fits in *; lia).
  destruct (scale_of c a V FF Ra Na) as [ea Sa]. destruct (scale_of c b V FF Rb Nb) as [eb Sb].
  destruct (Z_lt_le_dec (Z.abs (ea - eb)) (Z.max 32 (cF c))) as [D|D].
  2: { rewrite (p_add_far c a b V Ra Rb Na Nb ea eb) in P by assumption. discriminate. }
  assert (SB : (b <? 0) = negb (a <? 0)) by (destruct (Z.ltb_spec a 0), (Z.ltb_spec b 0); cbn; lia).
  destruct (p_add_opp_core c a b V Ra Rb Na Nb ea eb AF SB Sa Sb D) as [[E Z0]|[n [e [f [J [x [E [C Vx]]]]]]]];
    rewrite E in P.
  - injection P as <-. split.
    + eapply faithful_comp; [symmetry; exact Z0|]. apply faithful_zero; assumption.
    + unfold sign_ok. split; [|split]; split; intros; try lia; lra.
  - split.
    + eapply faithful_comp; [symmetry; exact Vx|]. eapply cellb_faithful; try eassumption.
      rewrite gran_val. apply AF.
    + pose proof (cellb_sign c n e f J x r V X C P) as SO. unfold sign_ok in *. rewrite Vx. assumption.
Qed.

(** Definedness. *)
Lemma p_add_defined c a b : valid_cfg c -> exp_ok c -> add_fits c -> roomy c -> real c a -> real c b ->
  (forall ea eb, scale (value c a) ea -> scale (value c b) eb -> Z.abs (ea - eb) < Z.max 32 (cF c)) ->
  exists r, p_add c a b = Ok r.
Proof.
  intros V X AF Rm Ra Rb D. vcb V. assert (MF : mul_fits c) by (unfold add_fits, mul_fits in *; lia).
  destruct (Z.eq_dec a 0) as [->|Na]; [eexists; reflexivity|].
  destruct (Z.eq_dec b 0) as [->|Nb].
  { exists a. unfold p_add, iszero. destruct (Z.eqb_spec a 0); [contradiction|reflexivity]. }
  assert (FF : frac_fits c) by (unfold frac_fits, mul_fits in *; lia).
  destruct (scale_of c a V FF Ra Na) as [ea Sa]. destruct (scale_of c b V FF Rb Nb) as [eb Sb].
  specialize (D ea eb Sa Sb).
  destruct (Bool.bool_dec (a <? 0) (b <? 0)) as [SS|OS].
  - destruct (p_add_same_core c a b V Ra Rb Na Nb ea eb MF SS Sa Sb D)
      as [n [e [f [j [x [E [J [C Vx]]]]]]]].
    rewrite E. apply pack_defined; try assumption. apply C.
  - assert (SB : (b <? 0) = negb (a <? 0)) by (destruct (a <? 0), (b <? 0); cbn; congruence).
    destruct (p_add_opp_core c a b V Ra Rb Na Nb ea eb AF SB Sa Sb D) as [[E Z0]|[n [e [f [J [x [E [C Vx]]]]]]]];
    rewrite E; [eauto|]. apply pack_defined; try assumption. apply C.
Qed.

(** Negation of real posits. *)
Lemma pwH_bound c : valid_cfg c -> 2 ^ (cN c - 1) <= 2 ^ (cH c - 1) <= 2 ^ (pw (cH c) - 1).
Proof.
  intros V. vcb V. split; apply pow2_mono; [lia|]. unfold pw. lia.
Qed.

Lemma p_neg_real c v : valid_cfg c -> real c v -> p_neg c v = Ok (- v).
Proof.
  intros V R. vcb V. pose proof (real_bounds c BN Bes v R) as B. pose proof (pwH_bound c V) as P.
  unfold p_neg, cneg, tS. rewrite arith_ps by (try apply (vc_H _ V); lia). cbn [bind].
  unfold deep, tS. rewrite cast_s_small by lia. reflexivity.
Qed.

Lemma p_sub_add c a b : valid_cfg c -> real c b -> p_sub c a b = p_add c a (- b).
Proof. intros V R. unfold p_sub. rewrite p_neg_real by assumption. reflexivity. Qed.
