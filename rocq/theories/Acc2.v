(** Relative error of rounding, exact differences and exact integers. *)
From Coq Require Import ZArith QArith Qabs Qround Lia Lqa Bool.
From Verif Require Import Res CInt Cfg Spec SpecAcc QPow Core SpecLemmas DecodeProof Ops OpsAdd Room Acc1.
Open Scope Z_scope.

Lemma cut x j : exists m, (dy m j <= x)%Q /\ (x < dy (m + 1) j)%Q.
Proof.
  exists (Qfloor (x / pow2 j)). pose proof (pow2_pos j) as P. pose proof (Qfloor_le (x / pow2 j)) as A. pose proof (Qlt_floor (x / pow2 j)) as B.
  assert (E : (x / pow2 j * pow2 j == x)%Q) by (field; apply pow2_nz). unfold dy. set (y := (x / pow2 j)%Q) in *. split; nra.
Qed.
Lemma dy_one e : (dy 1 e == pow2 e)%Q. Proof. unfold dy. change (inject_Z 1) with 1%Q. ring. Qed.
Lemma dy_pow2 f e : 0 <= f -> (dy (2 ^ f) (e - f) == pow2 e)%Q.
Proof. intros F. rewrite <- (Z.mul_1_l (2 ^ f)), dy_pow by lia. replace (e - f + f) with e by lia. apply dy_one. Qed.
Lemma dy_next m j : (dy (m + 1) j == dy m j + pow2 j)%Q.
Proof. unfold dy. rewrite inject_Z_plus. change (inject_Z 1) with 1%Q. ring. Qed.
Lemma scale_lo x e : (0 < x)%Q -> scale x e -> (pow2 e <= x)%Q /\ (x < pow2 (e + 1))%Q.
Proof. intros P [A B]. rewrite Qabs_pos in A, B by lra. auto. Qed.

Section acc.
Context (c : cfg) (V : valid_cfg c).
Notation N := (cN c).
Notation es := (ces c).
Notation fb := (fracbits c).

Lemma cut_grid x e : (0 < x)%Q -> scale x e -> 0 <= fb e -> exists m, 2 ^ fb e <= m < 2 ^ (fb e + 1) /\ (dy m (e - fb e) <= x)%Q /\ (x < dy (m + 1) (e - fb e))%Q.
Proof using.
  intros P S F. destruct (scale_lo x e P S) as [A B]. destruct (cut x (e - fb e)) as (m & M1 & M2). exists m. split; [|auto]. split.
  - assert (2 ^ fb e < m + 1); [|lia]. apply (dy_lt_inv _ _ (e - fb e)). rewrite dy_pow2 by lia. lra.
  - apply (dy_lt_inv _ _ (e - fb e)). replace (e - fb e) with (e + 1 - (fb e + 1)) at 2 by lia. rewrite dy_pow2 by lia. lra.
Qed.
Lemma down_below x r w : down_pos c x r -> real c w -> (0 < value c w)%Q -> (value c w <= x)%Q -> (value c w <= value c r)%Q /\ (value c r <= x)%Q.
Proof using.
  intros (R & P & M & L) W WP WL. pose proof (M w W WP WL) as H. split; [exact H|]. destruct L as [L|L]; [exact L|]. pose proof (L w W WP). lra.
Qed.
Lemma down_error x r e : (0 < x)%Q -> down_pos c x r -> scale x e -> 0 <= fb e -> (value c r <= x)%Q /\ (x - value c r < pow2 (e - fb e))%Q.
Proof using V.
  intros P D S F. destruct (cut_grid x e P S F) as (m & M & A & B). destruct (grid c V e m F M) as (w & W & WP & E).
  pose proof (v_N c V) as HN. pose proof (v_es c V) as Hes. assert (W0 : (0 < value c w)%Q) by (apply (value_pos c HN Hes); pose proof (real_bounds c HN Hes w W); lia).
  destruct (down_below x r w D W W0) as [H1 H2]; [rewrite E; exact A|]. split; [exact H2|]. rewrite dy_next in B. rewrite E in H1. lra.
Qed.
Lemma rel_error x y e f : scale x e -> (Qabs (y - x) < pow2 (e - f))%Q -> (Qabs (y - x) < pow2 (- f) * Qabs x)%Q.
Proof using.
  intros [S _] H. apply (Qlt_le_trans _ _ _ H). replace (e - f) with (- f + e) by lia. rewrite pow2_plus. pose proof (pow2_pos (- f)). nra.
Qed.
Lemma tz_accurate x r : rounds_tz c x r -> accurate c x r.
Proof using V.
  intros H e S F. apply (rel_error x _ e _ S). destruct H as [[H _]|[[P D]|[P D]]].
  - destruct (scale_nz x e S H).
  - destruct (down_error x r e P D S F) as [A B]. rewrite Qabs_neg by lra. lra.
  - destruct (down_error (- x) (- r) e ltac:(lra) D (scale_opp x e S) F) as [A B]. pose proof (v_N c V) as HN. pose proof (v_es c V) as Hes.
    rewrite (value_opp c HN Hes) in A, B. rewrite Qabs_pos by lra. lra.
Qed.
Lemma faithful_error x r e : (0 < x)%Q -> faithful c x r -> scale x e -> 0 <= fb e -> (Qabs (value c r - x) < pow2 (e - fb e))%Q.
Proof using V.
  intros P (R & EX & UP & DN) S F. pose proof (v_N c V) as HN. pose proof (v_es c V) as Hes. pose proof (pow2_pos (e - fb e)) as U0.
  destruct (cut_grid x e P S F) as (m & M & A & B). destruct (grid c V e m F M) as (w & W & WP & E). rewrite dy_next in B.
  destruct (Qeq_dec (value c w) x) as [Q|Q].
  { rewrite (EX w W Q). rewrite Qabs_pos by lra. lra. }
  assert (LT : (value c w < x)%Q) by (destruct (Qlt_le_dec (value c w) x); [assumption|exfalso; apply Q; lra]).
  destruct (Qlt_le_dec x (value c r)) as [G|G].
  - rewrite Qabs_pos by lra.
    assert (NX : (exists u, real c u /\ (value c u == dy (m + 1) (e - fb e))%Q) \/ (forall u, real c u -> (value c u <= pow2 e)%Q)).
    { destruct (Z.eq_dec (m + 1) (2 ^ (fb e + 1))) as [L|L].
      - destruct (grid_end c V e F) as [(u & U & _ & UE)|U]; [left|right; exact U]. exists u. split; [exact U|]. rewrite UE, L. replace (e - fb e) with (e + 1 - (fb e + 1)) by lia. rewrite dy_pow2 by lia. reflexivity.
      - left. destruct (grid c V e (m + 1) F) as (u & U & _ & UE); [lia|]. exists u. auto. }
    destruct NX as [(u & U & UE)|NX].
    + rewrite dy_next in UE. pose proof (UP u U) as H. destruct (Qlt_le_dec (value c u) (value c r)) as [L|L]; [exfalso; apply H; lra|]. lra.
    + pose proof (NX r R). destruct (scale_lo x e P S). lra.
  - rewrite Qabs_neg by lra. destruct (Qlt_le_dec (value c r) (value c w)) as [L|L]; [exfalso; apply (DN w W); lra|]. lra.
Qed.
Lemma faithful_accurate x r : faithful c x r -> accurate c x r.
Proof using V.
  intros H e S F. apply (rel_error x _ e _ S). pose proof (v_N c V) as HN. pose proof (v_es c V) as Hes. destruct (Qlt_le_dec 0 x) as [P|P]; [exact (faithful_error x r e P H S F)|].
  assert (NX : (0 < - x)%Q) by (pose proof (scale_nz x e S) as NZ; destruct (Qlt_le_dec x 0); [lra|exfalso; apply NZ; lra]).
  pose proof (faithful_error (- x) (- r) e NX (faithful_opp c x r H) (scale_opp x e S) F) as G. rewrite (value_opp c HN Hes) in G.
  assert (E : (- value c r - - x == - (value c r - x))%Q) by ring. rewrite E, Qabs_opp in G. exact G.
Qed.

Lemma maxreal_value : (value c (maxreal c) == pow2 (maxk c * 2 ^ es))%Q.
Proof using V.
  pose proof (v_N c V) as HN. pose proof (v_es c V) as Hes. destruct (pows c V) as (P3 & Pe & Pg & G0).
  assert (B : 1 <= maxreal c < 2 ^ (N - 1)) by (apply (maxreal_bounds c HN Hes)). rewrite (value_pos_lval c HN Hes _ B).
  assert (E : pdec N (maxreal c) = maxk c * 2 ^ (N - 3)) by (unfold maxreal, maxk; destruct (csp c); cbn [spec_eqb]; try apply (pdec_last N HN); apply (pdec_last2 N HN)).
  rewrite E, P3. replace (maxk c * (2 ^ es * 2 ^ gran c)) with (maxk c * 2 ^ es * 2 ^ gran c + 0) by ring. rewrite lval_ef by lia. replace (2 ^ gran c + 0) with (2 ^ gran c) by ring. apply dy_pow2. exact G0.
Qed.
Lemma one_value : (value c 1 == pow2 (- (N - 2) * 2 ^ es))%Q.
Proof using V.
  pose proof (v_N c V) as HN. pose proof (v_es c V) as Hes. destruct (pows c V) as (P3 & Pe & Pg & G0). pow_pos 2 (N - 3).
  assert (B : 1 <= 1 < 2 ^ (N - 1)) by (replace (N - 1) with (N - 3 + 1 + 1) by lia; rewrite !pow2_S by lia; lia). rewrite (value_pos_lval c HN Hes _ B), (pdec_first N HN), P3.
  replace (- (N - 2) * (2 ^ es * 2 ^ gran c)) with (- (N - 2) * 2 ^ es * 2 ^ gran c + 0) by ring. rewrite lval_ef by lia. replace (2 ^ gran c + 0) with (2 ^ gran c) by ring. apply dy_pow2. exact G0.
Qed.
Lemma down_within x r : (0 < x)%Q -> down_pos c x r -> (value c 1 <= x)%Q -> (x < pow2 (2 ^ es) * value c (maxreal c))%Q ->
  (value c r <= x)%Q /\ (x < pow2 (2 ^ es) * value c r)%Q.
Proof using V.
  intros P D L U. pose proof (v_N c V) as HN. pose proof (v_es c V) as Hes. destruct (pows c V) as (P3 & Pe & Pg & G0). destruct (scale_exists x ltac:(lra)) as (e & S). destruct (scale_lo x e P S) as [S1 S2].
  rewrite one_value in L. rewrite maxreal_value, <- pow2_plus in U. set (k := e / 2 ^ es). pose proof (Z.div_mod e (2 ^ es) ltac:(lia)) as DM. pose proof (Z.mod_pos_bound e (2 ^ es) Pe) as MB. fold k in DM.
  assert (E1 : - (N - 2) * 2 ^ es < e + 1) by (apply pow2_lt_inv; lra). assert (E2 : e < 2 ^ es + maxk c * 2 ^ es) by (apply pow2_lt_inv; lra).
  destruct (useed_power c V k) as (w & W & WP & E); [nia|].
  assert (W0 : (0 < value c w)%Q) by (rewrite E; apply pow2_pos).
  destruct (down_below x r w D W W0) as [H1 H2]; [rewrite E; apply Qle_trans with (pow2 e); [apply pow2_le; nia|exact S1]|]. split; [exact H2|].
  apply Qlt_le_trans with (pow2 (2 ^ es) * value c w)%Q; [|pose proof (pow2_pos (2 ^ es)); nra]. rewrite E, <- pow2_plus. apply Qlt_le_trans with (pow2 (e + 1)); [exact S2|]. apply pow2_le. nia.
Qed.
Lemma tz_within x r : rounds_tz c x r -> within_useed c x r.
Proof using V.
  intros H L U. pose proof (v_N c V) as HN. pose proof (v_es c V) as Hes.
  assert (P1 : (0 < value c 1)%Q) by (rewrite one_value; apply pow2_pos). destruct H as [[H _]|[[P D]|[P D]]].
  - exfalso. rewrite H in L. change (Qabs 0) with 0%Q in L. lra.
  - rewrite (Qabs_pos x) in * by lra. destruct (down_within x r P D L U) as [A B]. rewrite Qabs_pos; [auto|]. destruct D as (_ & D & _). lra.
  - rewrite (Qabs_neg x) in * by lra. destruct (down_within (- x) (- r) ltac:(lra) D L U) as [A B]. destruct D as (_ & D & _). rewrite (value_opp c HN Hes) in *. rewrite Qabs_neg by lra. auto.
Qed.

(** ** Exact results *)
Lemma repr D Q : 0 < D -> Z.log2 D <= fb (Z.log2 D + Q) -> exists v, real c v /\ 1 <= v /\ (value c v == dy D Q)%Q.
Proof using V.
  intros P L. pose proof (Z.log2_nonneg D) as L0. set (l := Z.log2 D) in *. set (f := fb (l + Q)) in *. pose proof (Z.log2_spec D P) as [B1 B2]. fold l in B1, B2. replace (Z.succ l) with (l + 1) in B2 by lia.
  rewrite pow2_S in B2 by lia. pow_pos 2 (f - l).
  assert (E : 2 ^ f = 2 ^ l * 2 ^ (f - l)) by (rewrite <- Z.pow_add_r by lia; f_equal; lia).
  destruct (grid c V (l + Q) (D * 2 ^ (f - l))) as (v & R & P1 & EV); fold f; [lia|rewrite pow2_S by lia; nia|]. fold f in EV. exists v. split; [exact R|]. split; [exact P1|].
  rewrite EV, dy_pow by lia. replace (l + Q - f + (f - l)) with Q by lia. reflexivity.
Qed.
Lemma repr_signed D Q : (D <> 0 -> Z.log2 (Z.abs D) <= fb (Z.log2 (Z.abs D) + Q)) -> exists v, real c v /\ (value c v == dy D Q)%Q.
Proof using V.
  intros L. pose proof (v_N c V) as HN. pose proof (v_es c V) as Hes. destruct (Z.lt_trichotomy D 0) as [S|[S|S]].
  - destruct (repr (Z.abs D) Q ltac:(lia) (L ltac:(lia))) as (v & R & _ & E). exists (- v). split; [apply (real_opp c HN Hes); exact R|]. rewrite (value_opp c HN Hes), E, dy_opp. replace (- Z.abs D) with D by lia. reflexivity.
  - exists 0. split; [unfold real; pose proof (maxreal_bounds c HN Hes); lia|]. rewrite S, (value_0 c HN Hes), dy_0. reflexivity.
  - destruct (repr (Z.abs D) Q ltac:(lia) (L ltac:(lia))) as (v & R & _ & E). exists v. split; [exact R|]. rewrite E. replace (Z.abs D) with D by lia. reflexivity.
Qed.

Definition unit_exp (e : Z) : Z := e - Z.max 0 (fb e).
Lemma unit_mono e e' : e <= e' -> unit_exp e <= unit_exp e'.
Proof using V. intros L. unfold unit_exp. pose proof (fb_lip c V e (e' - e) ltac:(lia)) as H. replace (e + (e' - e)) with e' in H by lia. lia. Qed.

Lemma sterbenz_pos a b : real c a -> real c b -> 1 <= a -> 1 <= b -> (value c b <= value c a)%Q -> (value c a <= 2 * value c b)%Q ->
  exists d, real c d /\ (value c d == value c a - value c b)%Q.
Proof using V.
  intros Ra Rb A B L U. pose proof (v_N c V) as HN. pose proof (v_es c V) as Hes.
  pose proof (real_bounds c HN Hes a Ra) as BA. pose proof (real_bounds c HN Hes b Rb) as BB.
  destruct (on_grid c V a ltac:(lia)) as (ea & ma & Sa & _ & Ma & Ea). destruct (on_grid c V b ltac:(lia)) as (eb & mb & Sb & _ & Mb & Eb).
  fold (unit_exp ea) in Ea. fold (unit_exp eb) in Eb.
  pose proof (value_pos c HN Hes a ltac:(lia)) as Pa. pose proof (value_pos c HN Hes b ltac:(lia)) as Pb.
  destruct (scale_lo _ _ Pa Sa) as [Sa1 Sa2]. destruct (scale_lo _ _ Pb Sb) as [Sb1 Sb2].
  assert (LE : eb <= ea) by (assert (eb < ea + 1); [apply pow2_lt_inv; lra|lia]).
  pose proof (unit_mono eb ea LE) as UM. rewrite (dy_align _ _ _ UM) in Ea. set (Q := unit_exp eb) in *. set (na := ma * 2 ^ (unit_exp ea - Q)) in *. clearbody na.
  assert (DE : (value c a - value c b == dy (na - mb) Q)%Q) by (rewrite Ea, Eb; unfold dy, Z.sub; rewrite inject_Z_plus, inject_Z_opp; ring).
  assert (D0 : mb <= na) by (apply (dy_le_inv _ _ Q); lra).
  assert (D1 : na - mb <= mb) by (apply (dy_le_inv _ _ Q); lra).
  destruct (Z.eq_dec na mb) as [Z0|NZ].
  { exists 0. split; [unfold real; pose proof (maxreal_bounds c HN Hes); lia|]. rewrite (value_0 c HN Hes), DE. replace (na - mb) with 0 by lia. rewrite dy_0. reflexivity. }
  set (D := na - mb) in *. destruct (Z_lt_le_dec (fb eb) 0) as [F|F].
  - rewrite Z.max_l in Mb by lia. change (2 ^ (0 + 1)) with 2 in Mb. assert (E : D = mb) by lia. exists b. split; [exact Rb|]. rewrite DE, E. exact Eb.
  - rewrite Z.max_r in Mb by lia.
    assert (L2 : Z.log2 D <= fb eb) by (assert (Z.log2 D < fb eb + 1); [apply Z.log2_lt_pow2; lia|lia]).
    assert (QE : Q = eb - fb eb) by (unfold Q, unit_exp; lia).
    destruct (repr D Q ltac:(lia)) as (v & R & _ & E).
    + pose proof (fb_lip c V (Z.log2 D + Q) (fb eb - Z.log2 D) ltac:(lia)) as H. replace (Z.log2 D + Q + (fb eb - Z.log2 D)) with eb in H by lia. lia.
    + exists v. split; [exact R|]. rewrite E, DE. reflexivity.
Qed.
(** Numbers within a factor of two of each other. *)
Lemma sterbenz a b : real c a -> real c b -> same_sign a b -> (Qabs (value c a) <= 2 * Qabs (value c b))%Q -> (Qabs (value c b) <= 2 * Qabs (value c a))%Q ->
  exists d, real c d /\ (value c d == value c a - value c b)%Q.
Proof using V.
  pose proof (v_N c V) as HN. pose proof (v_es c V) as Hes.
  assert (POS : forall a b, real c a -> real c b -> 1 <= a -> 1 <= b -> (value c a <= 2 * value c b)%Q -> (value c b <= 2 * value c a)%Q -> exists d, real c d /\ (value c d == value c a - value c b)%Q).
  { clear a b. intros a b Ra Rb A B U1 U2. destruct (Qlt_le_dec (value c a) (value c b)) as [L|L].
    - destruct (sterbenz_pos b a Rb Ra B A ltac:(lra) U2) as (d & R & E). exists (- d). split; [apply (real_opp c HN Hes); exact R|]. rewrite (value_opp c HN Hes), E. ring.
    - exact (sterbenz_pos a b Ra Rb A B L U1). }
  intros Ra Rb S U1 U2. pose proof (real_bounds c HN Hes a Ra) as BA. pose proof (real_bounds c HN Hes b Rb) as BB. destruct S as [[A B]|[A B]].
  - pose proof (value_pos c HN Hes a ltac:(lia)) as Pa. pose proof (value_pos c HN Hes b ltac:(lia)) as Pb. rewrite !Qabs_pos in U1, U2 by lra. apply POS; assumption || lia.
  - pose proof (value_pos c HN Hes (- a) ltac:(lia)) as Pa. pose proof (value_pos c HN Hes (- b) ltac:(lia)) as Pb. pose proof (value_opp c HN Hes a) as Oa. pose proof (value_opp c HN Hes b) as Ob.
    rewrite !Qabs_neg in U1, U2 by lra. destruct (POS (- a) (- b)) as (d & R & E); try (apply (real_opp c HN Hes); assumption); try lia; try lra.
    exists (- d). split; [apply (real_opp c HN Hes); exact R|]. rewrite (value_opp c HN Hes), E, Oa, Ob. ring.
Qed.

(** esbits 0: every posit is a multiple of the least one, and every multiple up to 1 is a posit. *)
Lemma es0_multiple v : es = 0 -> real c v -> exists m, (value c v == dy m (- (N - 2)))%Q.
Proof using V.
  intros E0 R. pose proof (v_N c V) as HN. pose proof (v_es c V) as Hes.
  assert (POS : forall w, 1 <= w < 2 ^ (N - 1) -> exists m, (value c w == dy m (- (N - 2)))%Q).
  { intros w W. destruct (on_grid c V w W) as (e & m & _ & EL & _ & E). rewrite E0 in EL. change (2 ^ 0) with 1 in EL. exists (m * 2 ^ (e - Z.max 0 (fb e) - - (N - 2))). rewrite E. apply dy_align.
    rewrite (fb_sft c V). unfold gran. rewrite E0. change (2 ^ 0) with 1. rewrite Z.div_1_r. unfold sft. destruct (Z.leb_spec 0 e); lia. }
  pose proof (real_bounds c HN Hes v R) as B. destruct (Z.lt_trichotomy v 0) as [S|[S|S]].
  - destruct (POS (- v) ltac:(lia)) as (m & E). exists (- m). rewrite <- dy_opp, <- E, (value_opp c HN Hes). ring.
  - exists 0. rewrite S, (value_0 c HN Hes), dy_0. reflexivity.
  - apply POS. lia.
Qed.
Lemma es0_unit m : es = 0 -> (Qabs (dy m (- (N - 2))) <= 1)%Q -> exists v, real c v /\ (value c v == dy m (- (N - 2)))%Q.
Proof using V.
  intros E0 B. pose proof (v_N c V) as HN. pose proof (v_es c V) as Hes.
  assert (MB : Z.abs m <= 2 ^ (N - 2)).
  { apply (dy_le_inv _ _ (- (N - 2))). assert (O : (dy (2 ^ (N - 2)) (- (N - 2)) == 1)%Q) by (replace (- (N - 2)) with (0 - (N - 2)) by lia; rewrite dy_pow2 by lia; reflexivity). rewrite O.
    pose proof (Qle_Qabs (dy m (- (N - 2)))) as A1. pose proof (Qle_Qabs (- dy m (- (N - 2)))) as A2. rewrite Qabs_opp in A2. rewrite dy_opp in A2. destruct (Z.abs_eq_or_opp m) as [-> | ->]; lra. }
  destruct (Z.eq_dec (Z.abs m) (2 ^ (N - 2))) as [E|E].
  - assert (F0 : fb 0 = N - 3) by (rewrite (fb_sft c V); unfold gran; rewrite E0; change (2 ^ 0) with 1; unfold sft; cbn; lia).
    assert (S : m = 1 * 2 ^ (N - 2) \/ m = -1 * 2 ^ (N - 2)) by lia. destruct S as [-> | ->].
    + destruct (repr_signed 1 0) as (v & R & EV); [intros _; cbn [Z.abs Z.log2 Z.add]; lia|]. exists v. split; [exact R|]. rewrite EV, dy_pow by lia. replace (- (N - 2) + (N - 2)) with 0 by lia. reflexivity.
    + destruct (repr_signed (-1) 0) as (v & R & EV); [intros _; cbn [Z.abs Z.log2 Z.add]; lia|]. exists v. split; [exact R|]. rewrite EV, dy_pow by lia. replace (- (N - 2) + (N - 2)) with 0 by lia. reflexivity.
  - apply repr_signed. intros NZ. pose proof (Z.log2_nonneg (Z.abs m)). assert (L : Z.log2 (Z.abs m) < N - 2) by (apply Z.log2_lt_pow2; lia).
    rewrite (fb_sft c V). unfold gran. rewrite E0. change (2 ^ 0) with 1. rewrite Z.div_1_r. unfold sft. destruct (Z.leb_spec 0 (Z.log2 (Z.abs m) + - (N - 2))); lia.
Qed.
(** Small integers. *)
Lemma int_posit e i : 0 <= e <= fb e -> Z.abs i < 2 ^ (e + 1) -> exists v, real c v /\ (value c v == inject_Z i)%Q.
Proof using V.
  intros E B. destruct (repr_signed i 0) as (v & R & EV).
  - intros NZ. pose proof (Z.log2_nonneg (Z.abs i)). assert (L : Z.log2 (Z.abs i) < e + 1) by (apply Z.log2_lt_pow2; lia).
    pose proof (fb_lip c V (Z.log2 (Z.abs i) + 0) (e - Z.log2 (Z.abs i)) ltac:(lia)) as HH. replace (Z.log2 (Z.abs i) + 0 + (e - Z.log2 (Z.abs i))) with e in HH by lia. lia.
  - exists v. split; [exact R|]. rewrite EV. unfold dy. change (pow2 0) with 1%Q. ring.
Qed.
End acc.
