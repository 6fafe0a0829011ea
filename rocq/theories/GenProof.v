(** Posits made from rounded float results, for formats narrower than float. *)
From Coq Require Import ZArith QArith Qabs Lia Lqa Bool List.
From Verif Require Import Res CInt Bits Traits Unpacked Cfg Posit Spec SpecFloat SpecAny FloatOps QPow Core SpecLemmas Arith DecodeProof EncodeProof
  UOps UAdd Ops OpsAdd OpsUnary OpsUnary2 Specials Room Laws Configs Final1 Final2 Final3 Misc4 Conv1 Conv2 Conv3 Conv4 Conv5 TabProof5 FloatProof FloatProof2 PositF PositFProof PositFProof2 PositFProof3 PositFProof4
  AnyProof AnyProof2 AnyProof3 AnyProof4 AnyProof5 Tab TabProof TabProof2 TabProof3 TabProof4 Gen.
Open Scope Z_scope.

(** Zero, or of magnitude between the least normal float and 2^127. *)
Definition nr (x : Q) : Prop := (x == 0)%Q \/ (pow2 (-126) <= Qabs x)%Q /\ (Qabs x <= pow2 127)%Q.
Lemma nr_comp x y : (x == y)%Q -> nr x -> nr y.
Proof. intros E [H|H]; [left|right]; rewrite <- E; assumption. Qed.
Lemma scale_nr x e : scale x e -> -126 <= e <= 126 -> nr x.
Proof.
  intros [S1 S2] B. right. split.
  - eapply Qle_trans; [|exact S1]. apply pow2_le. lia.
  - apply Qlt_le_weak. eapply Qlt_le_trans; [exact S2|]. apply pow2_le. lia.
Qed.

(** What is used of a format. *)
Record tabbed (c : cfg) : Prop := {
  tb_valid : valid_cfg c;
  tb_exp : exp_ok c;
  tb_et : et_holds c 8;
  tb_pt : pt_holds c 8;
  tb_ff : frac_fits c;
  tb_mf : mul_fits c;
  tb_roomy : roomy c;
  tb_cov : float_covers c 8 7;
  tb_F : 7 <= cF c;
  tb_emax : emax c <= 40;
  tb_gran : gran c <= 7;
  tb_N : cN c <= 15;
  tb_sp : csp c = WithNan;
  tb_zero : p_of_float c single_trait 0 = Ok 0 /\ p_of_float c single_trait (2 ^ 31) = Ok 0;
  tb_nan : p_of_float c single_trait (f_nan 8 23) = Ok (exceptional c);
  tb_inf : forall s, p_of_float c single_trait (f_inf 8 23 s) = Ok (exceptional c)
}.

Lemma fmt23 : fmt_ok 8 23. Proof. exact fmt_single. Qed.

Lemma zero_bits b q : 0 <= b < 2 ^ (8 + 23 + 1) -> ieee_val 8 23 b = FinVal q -> (q == 0)%Q -> b = 0 \/ b = 2 ^ 31.
Proof.
  intros B I Q. destruct (ieee_code_inv 8 23 fmt23 b q B I) as (s & g & G & -> & E). rewrite Q in E.
  assert (G0 : g = 0).
  { destruct (Z.eq_dec g 0) as [->|N]; [reflexivity|exfalso]. pose proof (mval_0 8 23 fmt23) as M0.
    pose proof (mval_lt 8 23 fmt23 0 g ltac:(lia) ltac:(lia)) as L. destruct s; cbn [sgq] in E; lra. }
  subst g. destruct s; [right|left]; reflexivity.
Qed.

Section tab.
Context (c : cfg) (T : tabbed c) (rnd : Q -> Z) (RN : rounding 8 23 rnd).
Let V := tb_valid c T.

Lemma cov23 : float_covers c 8 23.
Proof using T. destruct (tb_cov c T) as [A B]. split; [lia|exact B]. Qed.
Lemma posit_is_float v : real c v -> is_float 8 23 (value c v).
Proof using T.
  intros R. destruct (Z.eq_dec v 0) as [->|NZ]; [apply is_float_0; exact fmt23|].
  destruct (covered c 8 23 v V fmt23 (tb_ff c T) cov23 R NZ) as [(b0 & q & B & I & Q) _]. exists b0, q. auto.
Qed.
Lemma rooms x : nr x -> room c x.
Proof using T.
  intros [H|[H1 H2]]; [left; exact H|right]. destruct (scale_exists x) as (e & S).
  { intros Z. rewrite Z in H1. pose proof (pow2_pos (-126)). change (Qabs 0) with 0%Q in H1. lra. }
  exists e. split; [exact S|]. apply roomy_pack_room; [exact V|exact (tb_roomy c T)].
Qed.

(** No float separates [q] from the posits above it in magnitude. *)
Definition gap (q : Q) : Prop :=
  forall w, real c w -> (0 < value c w)%Q -> (Qabs q < value c w)%Q -> exists f, is_float 8 23 f /\ (Qabs q <= f)%Q /\ (f < value c w)%Q.

Lemma of_rnd q : nr q -> exists r y, p_of_float c single_trait (rnd q) = Ok r /\ ieee_val 8 23 (rnd q) = FinVal y /\ rounds_tz c y r /\
  ((q == 0)%Q -> r = 0) /\ (~ (q == 0)%Q -> ~ (y == 0)%Q).
Proof using T RN.
  intros NQ. assert (FI : (Qabs q <= pow2 (2 ^ (8 - 1) - 1))%Q).
  { destruct NQ as [H|[_ H]]; [rewrite H; change (Qabs 0) with 0%Q; apply Qlt_le_weak, pow2_pos|exact H]. }
  destruct (rnd_fin 8 23 fmt23 rnd RN q FI) as (y & Y). pose proof (rn_range _ _ _ RN q) as B.
  destruct NQ as [Z|[N1 N2]].
  - assert (Y0 : (y == 0)%Q).
    { pose proof (rnd_le 8 23 rnd RN q 0 (is_float_0 8 23 fmt23) ltac:(lra) y Y). pose proof (rnd_ge 8 23 rnd RN q 0 (is_float_0 8 23 fmt23) ltac:(lra) y Y). lra. }
    exists 0, y. split; [destruct (zero_bits _ y B Y Y0) as [->| ->]; apply (tb_zero c T)|]. split; [exact Y|].
    split; [left; split; [exact Y0|reflexivity]|]. split; [reflexivity|]. intros C. contradiction.
  - assert (LY : (pow2 (-126) <= Qabs y)%Q).
    { refine (rnd_abs_ge 8 23 rnd fmt23 RN q (pow2 (-126)) y _ N1 Y). apply (is_float_pow2 8 23 fmt23). cbn. lia. }
    destruct (of_float_normal c 8 23 true (rnd q) y V (tb_exp c T) fmt23 (tb_et c T) (tb_ff c T) B Y LY) as [O _].
    assert (NZ : ~ (y == 0)%Q) by (intros Z; rewrite Z in LY; change (Qabs 0) with 0%Q in LY; pose proof (pow2_pos (-126)); lra).
    destruct O as (r & O & R).
    { right. destruct (scale_exists y NZ) as (e & S). exists e. split; [exact S|]. apply roomy_pack_room; [exact V|exact (tb_roomy c T)]. }
    exists r, y. split; [exact O|]. split; [exact Y|]. split; [exact R|]. split; [|intros _; exact NZ].
    intros Z. rewrite Z in N1. change (Qabs 0) with 0%Q in N1. pose proof (pow2_pos (-126)). lra.
Qed.

Lemma of_rnd_via q : nr q -> exists r, p_of_float c single_trait (rnd q) = Ok r /\ via_float c 8 23 q r.
Proof using T RN.
  intros NQ. destruct (of_rnd q NQ) as (r & y & O & Y & R & _). exists r. split; [exact O|]. vcb V. split.
  - apply (faithful_via c q y); [intros w W L; exact (rnd_ge 8 23 rnd RN q _ (posit_is_float w W) L y Y)|
      intros w W L; exact (rnd_le 8 23 rnd RN q _ (posit_is_float w W) L y Y)|]. apply rounds_faithful; assumption.
  - intros F. destruct (rn_exact _ _ _ RN q F) as (z & Z1 & Z2). rewrite Y in Z1. injection Z1 as <-. apply (rounds_tz_comp c BN Bes y); assumption.
Qed.

Lemma of_rnd_gap q : nr q -> gap q -> exists r, p_of_float c single_trait (rnd q) = Ok r /\ rounds_tz c q r.
Proof using T RN.
  intros NQ G. destruct (of_rnd q NQ) as (r & y & O & Y & R & R0 & YN). exists r. split; [exact O|].
  destruct (Qeq_dec q 0) as [Z|NZ]; [left; split; [exact Z|apply R0; exact Z]|]. specialize (YN NZ).
  pose proof (rnd_sign 8 23 rnd fmt23 RN q y Y) as S.
  assert (DP : forall v, down_pos c (Qabs y) v -> down_pos c (Qabs q) v).
  { intros v (D1 & D2 & D3 & D4). split; [exact D1|]. split; [exact D2|]. split.
    - intros w W P L. apply D3; [exact W|exact P|]. exact (rnd_abs_ge 8 23 rnd fmt23 RN q _ y (posit_is_float w W) L Y).
    - destruct D4 as [D4|D4]; [left|right; exact D4]. apply Qnot_lt_le. intros C. destruct (G v D1 D2 C) as (f & F & F1 & F2).
      pose proof (rnd_abs_le 8 23 rnd fmt23 RN q f y F F1 Y). lra. }
  assert (DC : forall p p' v, (p == p')%Q -> down_pos c p v -> down_pos c p' v).
  { intros p p' v E (D1 & D2 & D3 & D4). split; [exact D1|]. split; [exact D2|]. split.
    - intros w W P L. apply D3; [exact W|exact P|rewrite E; exact L].
    - destruct D4 as [D4|D4]; [left; rewrite <- E; exact D4|right; exact D4]. }
  right. destruct R as [[Y0 _]|[[Y0 D]|[Y0 D]]]; [contradiction|left|right].
  - assert (Q0 : (0 < q)%Q) by (apply Qnot_le_lt; intros L; apply NZ; nra). split; [exact Q0|].
    apply (DC (Qabs q)); [apply Qabs_pos; lra|]. apply DP. apply (DC y); [symmetry; apply Qabs_pos; lra|exact D].
  - assert (Q0 : (q < 0)%Q) by (apply Qnot_le_lt; intros L; apply NZ; nra). split; [exact Q0|].
    apply (DC (Qabs q)); [apply Qabs_neg; lra|]. apply DP. apply (DC (- y)%Q); [symmetry; apply Qabs_neg; lra|exact D].
Qed.
Lemma gap_float q : is_float 8 23 q -> gap q.
Proof using T.
  intros F w W P L. exists (Qabs q). split; [|split; [lra|exact L]].
  destruct (abs_case q) as [[_ E]|[_ E]]; [apply (is_float_comp 8 23 q); [symmetry; exact E|exact F]|].
  apply (is_float_comp 8 23 (- q)); [symmetry; exact E|apply (is_float_opp 8 23 fmt23); exact F].
Qed.
Lemma of_rnd_float q : nr q -> is_float 8 23 q -> exists r, p_of_float c single_trait (rnd q) = Ok r /\ rounds_tz c q r.
Proof using T RN. intros N F. apply of_rnd_gap; [exact N|apply gap_float; exact F]. Qed.

(** Values of the format. *)
Lemma vdy v : real c v -> v <> 0 -> exists n e m, (value c v == sgq n (dy m (e - gran c)))%Q /\
  2 ^ gran c <= m < 2 ^ (gran c + 1) /\ - emax c <= e <= emax c /\ scale (value c v) e.
Proof using T. exact (real_dy 8 7 c V (tb_cov c T) (tb_F c T) v). Qed.
Lemma emax_pos : 0 <= emax c.
Proof using T. unfold emax. vcb V. pow_pos 2 (ces c). nia. Qed.
Lemma gran_pos : 0 <= gran c.
Proof using T. vcb V. apply gran_nonneg; assumption. Qed.

Lemma mul_nr a b : real c a -> real c b -> nr (value c a * value c b).
Proof using T.
  intros A B. pose proof (tb_emax c T). destruct (Z.eq_dec a 0) as [->|NA]; [left; change (value c 0) with 0%Q; ring|].
  destruct (Z.eq_dec b 0) as [->|NB]; [left; change (value c 0) with 0%Q; ring|].
  destruct (vdy a A NA) as (n & e & m & _ & _ & Be & Se). destruct (vdy b B NB) as (n' & f & m' & _ & _ & Bf & Sf).
  destruct (scale_mul 8 _ _ _ _ Se Sf) as [S|S]; apply (scale_nr _ _ S); lia.
Qed.
Lemma div_nr a b : real c a -> real c b -> b <> 0 -> nr (value c a / value c b).
Proof using T.
  intros A B NB. pose proof (tb_emax c T). destruct (Z.eq_dec a 0) as [->|NA]; [left; change (value c 0) with 0%Q; unfold Qdiv; ring|].
  destruct (vdy a A NA) as (n & e & m & _ & _ & Be & Se). destruct (vdy b B NB) as (n' & f & m' & _ & _ & Bf & Sf).
  unfold Qdiv. destruct (scale_inv 8 _ _ Sf) as [SI|SI]; destruct (scale_mul 8 _ _ _ _ Se SI) as [S|S]; apply (scale_nr _ _ S); lia.
Qed.
Lemma v_nr v : real c v -> nr (value c v).
Proof using T.
  intros A. pose proof (tb_emax c T). destruct (Z.eq_dec v 0) as [->|NA]; [left; reflexivity|].
  destruct (vdy v A NA) as (n & e & m & _ & _ & Be & Se). apply (scale_nr _ _ Se). lia.
Qed.

Lemma mul_exact a b : real c a -> real c b -> is_float 8 23 (value c a * value c b).
Proof using T.
  intros A B. pose proof (tb_emax c T). pose proof (tb_gran c T). pose proof gran_pos.
  destruct (Z.eq_dec a 0) as [->|NA]; [apply (is_float_comp 8 23 0); [change (value c 0) with 0%Q; ring|apply is_float_0; exact fmt23]|].
  destruct (Z.eq_dec b 0) as [->|NB]; [apply (is_float_comp 8 23 0); [change (value c 0) with 0%Q; ring|apply is_float_0; exact fmt23]|].
  destruct (vdy a A NA) as (n1 & e1 & m1 & E1 & M1 & B1 & _). destruct (vdy b B NB) as (n2 & e2 & m2 & E2 & M2 & B2 & _).
  assert (E : (value c a * value c b == sgq (xorb n1 n2) (dy (m1 * m2) ((e1 - gran c) + (e2 - gran c))))%Q).
  { rewrite E1, E2. unfold dy. destruct n1, n2; cbn [sgq xorb]; rewrite pow2_plus, inject_Z_mult; ring. }
  refine (is_float_comp 8 23 _ _ (Qeq_sym _ _ E) _). apply (is_float_sgq 8 23 fmt23).
  assert (P1 : 2 ^ (gran c + 1) <= 2 ^ 8) by (apply Z.pow_le_mono_r; lia). pow_pos 2 (gran c).
  assert (MM : 0 <= m1 * m2 < 2 ^ 16) by nia.
  apply (is_float_dy 8 23 fmt23); [cbn in *; lia|cbn; lia|].
  apply Qlt_le_trans with (dy (2 ^ 16) (e1 - gran c + (e2 - gran c))); [apply dy_lt; lia|].
  unfold dy. rewrite <- pow2_Z by lia. rewrite <- pow2_plus. apply pow2_le. change (2 ^ (8 - 1)) with 128. lia.
Qed.

(** Quotients keep off the posits above them. *)
Lemma quot_gap g m1 j1 m2 j2 m j : 0 <= g -> 2 ^ g <= m1 < 2 ^ (g + 1) -> 2 ^ g <= m2 < 2 ^ (g + 1) -> 2 ^ g <= m < 2 ^ (g + 1) ->
  (dy m1 j1 < dy m j * dy m2 j2)%Q -> (dy m1 j1 <= dy (m * 2 ^ (g + 2) - 1) (j - (g + 2)) * dy m2 j2)%Q.
Proof.
  intros G M1 M2 M L. pow_pos 2 g. assert (F1 : 2 ^ (g + 1) = 2 * 2 ^ g) by (rewrite Z.pow_add_r by lia; ring).
  assert (F2 : 2 ^ (g + 2) = 4 * 2 ^ g) by (rewrite Z.pow_add_r by lia; ring). rewrite dy_mul in *.
  destruct (Z_le_gt_dec (j + j2) j1) as [C|C].
  - rewrite (dy_align m1 j1 (j + j2) C) in *. apply dy_lt_inv in L. set (A := m1 * 2 ^ (j1 - (j + j2))) in *.
    rewrite (dy_align A (j + j2) (j - (g + 2) + j2)) by lia. replace (j + j2 - (j - (g + 2) + j2)) with (g + 2) by lia. apply dy_le. nia.
  - apply Qle_trans with (dy m1 (j + j2 - 1)); [unfold dy; rewrite !(Qmult_comm (inject_Z m1)); apply Qmult_le_r; [change 0%Q with (inject_Z 0); rewrite <- Zlt_Qlt; lia|apply pow2_le; lia]|].
    rewrite (dy_align m1 (j + j2 - 1) (j - (g + 2) + j2)) by lia. replace (j + j2 - 1 - (j - (g + 2) + j2)) with (g + 1) by lia. rewrite F1, F2. apply dy_le.
    assert (m1 * (2 * 2 ^ g) <= (2 * 2 ^ g) * (2 * 2 ^ g)) by nia. assert (2 ^ g * (4 * 2 ^ g) <= m * (4 * 2 ^ g)) by nia.
    assert ((m * (4 * 2 ^ g) - 1) * m2 >= (2 ^ g * (4 * 2 ^ g) - 1) * 2 ^ g) by nia.
    destruct (Z.eq_dec g 0) as [->|NG].
    + change (2 ^ 0) with 1 in *. nia.
    + assert (2 <= 2 ^ g) by (change 2 with (2 ^ 1) at 1; apply Z.pow_le_mono_r; lia). nia.
Qed.
Lemma div_gap a b : real c a -> real c b -> b <> 0 -> gap (value c a / value c b).
Proof using T.
  intros A B NB. pose proof (tb_emax c T). pose proof (tb_gran c T). pose proof gran_pos as G0.
  destruct (Z.eq_dec a 0) as [->|NA].
  { apply gap_float. apply (is_float_comp 8 23 0); [change (value c 0) with 0%Q; unfold Qdiv; ring|apply is_float_0; exact fmt23]. }
  destruct (vdy a A NA) as (n1 & e1 & m1 & E1 & M1 & B1 & _). destruct (vdy b B NB) as (n2 & e2 & m2 & E2 & M2 & B2 & _).
  intros w W P L. destruct (Z.eq_dec w 0) as [->|NW]; [change (value c 0) with 0%Q in P; lra|].
  destruct (vdy w W NW) as (n & e & m & E & M & Bw & _). pow_pos 2 (gran c).
  assert (DW : (0 < dy m (e - gran c))%Q) by (apply dy_pos; lia). assert (D1 : (0 < dy m1 (e1 - gran c))%Q) by (apply dy_pos; lia).
  assert (D2 : (0 < dy m2 (e2 - gran c))%Q) by (apply dy_pos; lia).
  destruct n; cbn [sgq] in E; [lra|].
  assert (VB : ~ (value c b == 0)%Q) by (rewrite E2; destruct n2; cbn [sgq]; lra).
  assert (QY : (Qabs (value c a / value c b) * dy m2 (e2 - gran c) == dy m1 (e1 - gran c))%Q).
  { assert (AB : (Qabs (value c b) == dy m2 (e2 - gran c))%Q) by (rewrite E2; destruct n2; cbn [sgq]; [rewrite Qabs_opp|]; apply Qabs_pos; lra).
    assert (AA : (Qabs (value c a) == dy m1 (e1 - gran c))%Q) by (rewrite E1; destruct n1; cbn [sgq]; [rewrite Qabs_opp|]; apply Qabs_pos; lra).
    rewrite <- AB, <- AA, <- Qabs_Qmult. apply Qabs_wd. field. exact VB. }
  set (q := Qabs (value c a / value c b)) in *. set (g := gran c) in *.
  exists (dy (m * 2 ^ (g + 2) - 1) (e - g - (g + 2))).
  assert (F2 : 2 ^ (g + 2) = 4 * 2 ^ g) by (rewrite Z.pow_add_r by lia; ring).
  assert (PE : (dy m (e - g) == dy (m * 2 ^ (g + 2)) (e - g - (g + 2)))%Q) by (rewrite dy_pow by lia; replace (e - g - (g + 2) + (g + 2)) with (e - g) by lia; reflexivity).
  assert (WP : (dy (m * 2 ^ (g + 2) - 1) (e - g - (g + 2)) < value c w)%Q) by (rewrite E, PE; apply dy_lt; lia).
  split; [|split; [|exact WP]].
  - assert (P8 : 2 ^ (g + 1) <= 2 ^ 8) by (apply Z.pow_le_mono_r; lia). assert (P9 : 2 ^ (g + 2) <= 2 ^ 9) by (apply Z.pow_le_mono_r; lia).
    apply (is_float_dy 8 23 fmt23); [|cbn; lia|].
    + change (2 ^ (23 + 1)) with (2 ^ 24). nia.
    + eapply Qlt_trans; [exact WP|]. rewrite E. apply Qlt_le_trans with (dy (2 ^ (g + 1)) (e - g)); [apply dy_lt; lia|].
      unfold dy. rewrite <- pow2_Z by lia. rewrite <- pow2_plus. apply pow2_le. change (2 ^ (8 - 1)) with 128. lia.
  - apply Qmult_le_r with (dy m2 (e2 - g)); [exact D2|]. rewrite QY. apply quot_gap; try assumption.
    rewrite <- QY, <- E. apply Qmult_lt_r; assumption.
Qed.

Lemma grid v : real c v -> exists z, (value c v == dy z (- emax c - gran c))%Q.
Proof using T. exact (real_grid 8 7 c V (tb_cov c T) (tb_F c T) v). Qed.
Lemma v_bound v : real c v -> (Qabs (value c v) < pow2 (emax c + 1))%Q.
Proof using T.
  intros R. destruct (Z.eq_dec v 0) as [->|NV]; [change (Qabs (value c 0)) with 0%Q; apply pow2_pos|].
  destruct (vdy v R NV) as (n & e & m & _ & _ & Be & [_ Se]). eapply Qlt_le_trans; [exact Se|]. apply pow2_le. lia.
Qed.
Lemma add_nr a b : real c a -> real c b -> nr (value c a + value c b).
Proof using T.
  intros Ra Rb. pose proof (tb_emax c T). pose proof (tb_gran c T). pose proof gran_pos. pose proof emax_pos.
  destruct (grid a Ra) as (p & P). destruct (grid b Rb) as (q & Q).
  assert (S : (value c a + value c b == dy (p + q) (- emax c - gran c))%Q) by (rewrite P, Q; apply dy_add).
  destruct (Z.eq_dec (p + q) 0) as [Z0|NZ]; [left; rewrite S, Z0; apply dy_0|]. right. split.
  - rewrite S. assert (A : (Qabs (dy (p + q) (- emax c - gran c)) == dy (Z.abs (p + q)) (- emax c - gran c))%Q).
    { unfold dy. rewrite Qabs_Qmult. rewrite (Qabs_pos (pow2 _)) by (pose proof (pow2_pos (- emax c - gran c)); lra). reflexivity. }
    rewrite A. apply Qle_trans with (dy 1 (- emax c - gran c)); [|apply dy_le; lia].
    unfold dy. change (inject_Z 1) with 1%Q. rewrite Qmult_1_l. apply pow2_le. lia.
  - pose proof (v_bound a Ra). pose proof (v_bound b Rb). eapply Qle_trans; [apply Qabs_triangle|].
    assert (D : (pow2 (emax c + 2) == pow2 (emax c + 1) * 2)%Q) by (replace (emax c + 2) with (emax c + 1 + 1) by lia; rewrite pow2_plus; reflexivity).
    apply Qle_trans with (pow2 (emax c + 2)); [rewrite D; lra|]. apply pow2_le. lia.
Qed.
Lemma add_exact a b : 2 * emax c + gran c + 2 <= 24 -> real c a -> real c b -> is_float 8 23 (value c a + value c b).
Proof using T.
  intros SM Ra Rb. pose proof (tb_emax c T). pose proof (tb_gran c T). pose proof gran_pos. pose proof emax_pos.
  destruct (grid a Ra) as (p & P). destruct (grid b Rb) as (q & Q).
  assert (S : (value c a + value c b == dy (p + q) (- emax c - gran c))%Q) by (rewrite P, Q; apply dy_add).
  assert (DF : forall z, 0 <= z -> (dy z (- emax c - gran c) < pow2 (emax c + 2))%Q -> is_float 8 23 (dy z (- emax c - gran c))).
  { intros z Z L. apply (is_float_dy 8 23 fmt23); [|cbn; lia|].
    - split; [exact Z|]. assert (E : (pow2 (emax c + 2) == dy (2 ^ (2 * emax c + gran c + 2)) (- emax c - gran c))%Q).
      { unfold dy. rewrite <- pow2_Z by lia. rewrite <- pow2_plus. replace (2 * emax c + gran c + 2 + (- emax c - gran c)) with (emax c + 2) by lia. reflexivity. }
      rewrite E in L. apply dy_lt_inv in L. eapply Z.lt_le_trans; [exact L|]. apply Z.pow_le_mono_r; lia.
    - eapply Qlt_le_trans; [exact L|]. apply pow2_le. change (2 ^ (8 - 1)) with 128. lia. }
  assert (BD : (Qabs (value c a + value c b) < pow2 (emax c + 2))%Q).
  { pose proof (v_bound a Ra). pose proof (v_bound b Rb). eapply Qle_lt_trans; [apply Qabs_triangle|].
    assert (D : (pow2 (emax c + 2) == pow2 (emax c + 1) * 2)%Q) by (replace (emax c + 2) with (emax c + 1 + 1) by lia; rewrite pow2_plus; reflexivity). lra. }
  refine (is_float_comp 8 23 _ _ (Qeq_sym _ _ S) _). rewrite S in BD. destruct (Z_le_gt_dec 0 (p + q)) as [C|C].
  - apply DF; [exact C|]. eapply Qle_lt_trans; [apply Qle_Qabs|exact BD].
  - apply (is_float_comp 8 23 (- dy (- (p + q)) (- emax c - gran c))); [rewrite <- dy_opp; ring|]. apply (is_float_opp 8 23 fmt23). apply DF; [lia|].
    rewrite <- dy_opp. eapply Qle_lt_trans; [|exact BD]. rewrite <- Qabs_opp. apply Qle_Qabs.
Qed.
Lemma half_float v : real c v -> is_float 8 23 (value c v / 2) /\ nr (value c v / 2).
Proof using T.
  intros R. pose proof (tb_emax c T). pose proof (tb_gran c T). pose proof gran_pos.
  destruct (Z.eq_dec v 0) as [->|NV].
  { assert (E : (value c 0 / 2 == 0)%Q) by (change (value c 0) with 0%Q; reflexivity). split; [|left; exact E].
    apply (is_float_comp 8 23 0); [symmetry; exact E|apply is_float_0; exact fmt23]. }
  destruct (vdy v R NV) as (n & e & m & E & M & B & S). pow_pos 2 (gran c).
  assert (P2 : (pow2 (-1) == 1 # 2)%Q) by reflexivity.
  assert (EH : (value c v / 2 == sgq n (dy m (e - 1 - gran c)))%Q).
  { rewrite E. assert (D : (dy m (e - 1 - gran c) == dy m (e - gran c) * (1 # 2))%Q) by (unfold dy; replace (e - 1 - gran c) with (e - gran c + -1) by lia; rewrite pow2_plus, P2; ring).
    destruct n; cbn [sgq]; rewrite D; field. }
  split.
  - refine (is_float_comp 8 23 _ _ (Qeq_sym _ _ EH) _). apply (is_float_sgq 8 23 fmt23).
    assert (P1 : 2 ^ (gran c + 1) <= 2 ^ 8) by (apply Z.pow_le_mono_r; lia).
    apply (is_float_dy 8 23 fmt23); [cbn in *; lia|cbn; lia|].
    apply Qlt_le_trans with (dy (2 ^ 8) (e - 1 - gran c)); [apply dy_lt; lia|].
    unfold dy. rewrite <- pow2_Z by lia. rewrite <- pow2_plus. apply pow2_le. change (2 ^ (8 - 1)) with 128. lia.
  - apply (scale_nr _ (e - 1)); [|lia]. destruct S as [S1 S2].
    assert (A : (Qabs (value c v / 2) == Qabs (value c v) * pow2 (-1))%Q) by (unfold Qdiv; rewrite Qabs_Qmult; reflexivity).
    unfold scale. replace (e - 1) with (e + -1) by lia. replace (e + -1 + 1) with (e + 1 + -1) by lia. rewrite !pow2_plus in *. rewrite A.
    rewrite P2. split; lra.
Qed.
End tab.
