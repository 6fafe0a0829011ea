(** Accuracy and exactness of the operations. *)
From Coq Require Import ZArith QArith Qabs Lia Lqa Bool.
From Verif Require Import Res CInt Traits Cfg Spec SpecAcc Unpacked Posit Posit2 QPow Core SpecLemmas DecodeProof Ops OpsAdd Room Final1 Final2 Fma Conv2 Conv3 Convert OpsUnary2 Acc1 Acc2.
Open Scope Z_scope.

Lemma room_or c x : valid_cfg c -> room c x \/ ~ room c x.
Proof.
  intros V. destruct (Qeq_dec x 0) as [Z|NZ]; [left; left; exact Z|]. destruct (scale_exists x NZ) as (e & S). destruct (room_dec c e) as [R|R]; [left; right; exists e; auto|].
  right. intros [Z|(e' & S' & R')]; [contradiction|]. rewrite (scale_unique _ _ _ S' S) in R'. contradiction.
Qed.
Lemma by_room {c x o r} : valid_cfg c -> (room c x -> exists r, o = Ok r /\ rounds_tz c x r) /\ (~ room c x -> o = UB ShiftCount) -> o = Ok r -> rounds_tz c x r.
Proof.
  intros V [A B] O. destruct (room_or c x V) as [R|R]; [|rewrite (B R) in O; discriminate]. destruct (A R) as (r' & E & H). rewrite E in O. injection O as <-. exact H.
Qed.
Lemma tz_acc c x r : valid_cfg c -> rounds_tz c x r -> accurate c x r /\ within_useed c x r.
Proof. intros V H. split; [apply tz_accurate|apply tz_within]; assumption. Qed.

Lemma mul_accurate c a b r : valid_cfg c -> exp_ok c -> mul_fits c -> real c a -> real c b -> p_mul c a b = Ok r ->
  accurate c (value c a * value c b) r /\ within_useed c (value c a * value c b) r.
Proof. intros V X MF Ra Rb O. apply tz_acc; [exact V|]. exact (by_room V (mul_total c a b V X MF Ra Rb) O). Qed.
Lemma div_accurate c a b r : valid_cfg c -> exp_ok c -> mul_fits c -> real c a -> real c b -> b <> 0 -> p_div c a b = Ok r ->
  accurate c (value c a / value c b) r /\ within_useed c (value c a / value c b) r.
Proof. intros V X MF Ra Rb Nb O. apply tz_acc; [exact V|]. exact (by_room V (div_total c a b V X MF Ra Rb Nb) O). Qed.
Lemma inv_accurate c v r : valid_cfg c -> exp_ok c -> mul_fits c -> real c v -> v <> 0 -> ~ (csp c = WithNanInf /\ (v = 1 \/ v = -1)) -> p_inv c v = Ok r ->
  accurate c (/ value c v) r /\ within_useed c (/ value c v) r.
Proof. intros V X MF R NZ NE O. apply tz_acc; [exact V|]. exact (p_inv_rounds c v r V X MF R NZ NE O). Qed.
Lemma add_accurate c a b r : valid_cfg c -> exp_ok c -> add_fits c -> real c a -> real c b -> p_add c a b = Ok r -> accurate c (value c a + value c b) r.
Proof. intros V X AF Ra Rb O. apply faithful_accurate; [exact V|]. apply (p_add_faithful c a b r V X AF Ra Rb O). Qed.
Lemma sub_accurate c a b r : valid_cfg c -> exp_ok c -> add_fits c -> real c a -> real c b -> p_sub c a b = Ok r -> accurate c (value c a - value c b) r.
Proof. intros V X AF Ra Rb O. apply faithful_accurate; [exact V|]. apply (sub_any c a b r V X AF Ra Rb O). Qed.
Lemma fma_accurate c a b d r : valid_cfg c -> exp_ok c -> fma_fits c -> real c a -> real c b -> real c d -> p_fma c a b d = Ok r -> accurate c (value c a * value c b + value c d) r.
Proof. intros V X FF Ra Rb Rd O. apply faithful_accurate; [exact V|]. apply (proj1 (fma_faithful c a b d V X FF Ra Rb Rd) r O). Qed.
Lemma of_int_accurate c i r : valid_cfg c -> exp_ok c -> frac_fits c \/ 32 <= cF c -> - 2 ^ 31 < i < 2 ^ 31 -> p_of_int c i = Ok r -> accurate c (inject_Z i) r /\ within_useed c (inject_Z i) r.
Proof. intros V X FF B O. apply tz_acc; [exact V|]. exact (by_room V (of_int c i V X FF B) O). Qed.
Lemma convert_accurate c c' v r : valid_cfg c -> valid_cfg c' -> exp_ok c' -> frac_fits c -> same_unpacked c c' -> real c v -> p_convert c c' v = Ok r ->
  accurate c' (value c v) r /\ within_useed c' (value c v) r.
Proof. intros V V' X FF SU R O. apply tz_acc; [exact V'|]. exact (by_room V' (convert_total c c' v V V' X FF SU R) O). Qed.
Lemma of_float_accurate c eb fb den b q r : valid_cfg c -> exp_ok c -> fmt_ok eb fb -> et_holds c eb -> frac_fits c -> 0 <= b < 2 ^ (eb + fb + 1) ->
  ieee_val eb fb b = FinVal q -> (pow2 (2 - 2 ^ (eb - 1)) <= Qabs q)%Q -> p_of_float c (any_floattrait eb fb den) b = Ok r -> accurate c q r /\ within_useed c q r.
Proof. intros V X FO ET FF B IV L O. apply tz_acc; [exact V|]. exact (by_room V (of_float_normal c eb fb den b q V X FO ET FF B IV L) O). Qed.

(** ** Exact results *)
Lemma faithful_is c x r : faithful c x r -> (exists w, real c w /\ (value c w == x)%Q) -> (value c r == x)%Q.
Proof. intros (_ & H & _) (w & R & E). rewrite (H w R E). exact E. Qed.
Lemma tz_is c x r : valid_cfg c -> rounds_tz c x r -> (exists w, real c w /\ (value c w == x)%Q) -> (value c r == x)%Q.
Proof.
  intros V H (w & R & E). vcb V. assert (T : rounds_tz c x w) by (apply (rounds_tz_comp c BN Bes _ _ w E), rounds_tz_exact; assumption). rewrite (rounds_tz_unique c BN Bes x r w H T). exact E.
Qed.
Lemma add_frac c : add_fits c -> frac_fits c. Proof. unfold add_fits, frac_fits. lia. Qed.
Lemma add_mul c : add_fits c -> mul_fits c. Proof. unfold add_fits, mul_fits. lia. Qed.

Lemma sterbenz_scales x y ex ey : scale x ex -> scale y ey -> (Qabs x <= 2 * Qabs y)%Q -> ex <= ey + 1.
Proof.
  intros [A _] [_ B] L. assert (ex < ey + 1 + 1); [|lia]. apply pow2_lt_inv. rewrite (pow2_plus (ey + 1) 1). change (pow2 1) with (2#1)%Q. lra.
Qed.
Lemma sub_sterbenz c a b : valid_cfg c -> exp_ok c -> add_fits c -> real c a -> real c b -> same_sign a b ->
  (Qabs (value c a) <= 2 * Qabs (value c b))%Q -> (Qabs (value c b) <= 2 * Qabs (value c a))%Q ->
  (forall r, p_sub c a b = Ok r -> (value c r == value c a - value c b)%Q) /\ (roomy c -> exists r, p_sub c a b = Ok r).
Proof.
  intros V X AF Ra Rb S U1 U2. split.
  - intros r O. apply (faithful_is c _ r); [apply (sub_any c a b r V X AF Ra Rb O)|]. apply sterbenz; assumption.
  - intros Rm. destruct (proj1 (sub_total c a b V X AF Ra Rb)) as (r & O & _); [|exists r; exact O]. left. split; [|apply roomy_room_up; assumption].
    intros ea eb Ea Eb. pose proof (sterbenz_scales _ _ _ _ Ea Eb U1). pose proof (sterbenz_scales _ _ _ _ Eb Ea U2). lia.
Qed.

Lemma es0_sum c a b s : valid_cfg c -> ces c = 0 -> real c a -> real c b -> s = 1 \/ s = -1 -> (Qabs (value c a + inject_Z s * value c b) <= 1)%Q ->
  exists w, real c w /\ (value c w == value c a + inject_Z s * value c b)%Q.
Proof.
  intros V E0 Ra Rb S L. destruct (es0_multiple c V a E0 Ra) as (m & Ea). destruct (es0_multiple c V b E0 Rb) as (n & Eb).
  assert (E : (value c a + inject_Z s * value c b == dy (m + s * n) (- (cN c - 2)))%Q) by (rewrite Ea, Eb; unfold dy; rewrite inject_Z_plus, inject_Z_mult; ring).
  rewrite E in L. destruct (es0_unit c V _ E0 L) as (w & R & W). exists w. split; [exact R|]. rewrite W, E. reflexivity.
Qed.
Lemma add_es0 c a b r : valid_cfg c -> exp_ok c -> add_fits c -> ces c = 0 -> real c a -> real c b -> (Qabs (value c a + value c b) <= 1)%Q ->
  p_add c a b = Ok r -> (value c r == value c a + value c b)%Q.
Proof.
  intros V X AF E0 Ra Rb L O. assert (E : (value c a + inject_Z 1 * value c b == value c a + value c b)%Q) by (change (inject_Z 1) with 1%Q; ring).
  apply (faithful_is c _ r); [apply (p_add_faithful c a b r V X AF Ra Rb O)|]. destruct (es0_sum c a b 1 V E0 Ra Rb) as (w & R & W); [lia|rewrite E; exact L|]. exists w. split; [exact R|]. rewrite W. exact E.
Qed.
Lemma sub_es0 c a b r : valid_cfg c -> exp_ok c -> add_fits c -> ces c = 0 -> real c a -> real c b -> (Qabs (value c a - value c b) <= 1)%Q ->
  p_sub c a b = Ok r -> (value c r == value c a - value c b)%Q.
Proof.
  intros V X AF E0 Ra Rb L O. assert (E : (value c a + inject_Z (-1) * value c b == value c a - value c b)%Q) by (change (inject_Z (-1)) with (-(1))%Q; ring).
  apply (faithful_is c _ r); [apply (sub_any c a b r V X AF Ra Rb O)|]. destruct (es0_sum c a b (-1) V E0 Ra Rb) as (w & R & W); [lia|rewrite E; exact L|]. exists w. split; [exact R|]. rewrite W. exact E.
Qed.

Lemma ints c e i j a b : valid_cfg c -> exp_ok c -> add_fits c -> 0 <= e <= fracbits c e -> real c a -> real c b -> (value c a == inject_Z i)%Q -> (value c b == inject_Z j)%Q ->
  (forall r, p_add c a b = Ok r -> Z.abs (i + j) < 2 ^ (e + 1) -> (value c r == inject_Z (i + j))%Q) /\
  (forall r, p_sub c a b = Ok r -> Z.abs (i - j) < 2 ^ (e + 1) -> (value c r == inject_Z (i - j))%Q) /\
  (forall r, p_mul c a b = Ok r -> Z.abs (i * j) < 2 ^ (e + 1) -> (value c r == inject_Z (i * j))%Q) /\
  (forall r q, p_div c a b = Ok r -> j <> 0 -> i = q * j -> Z.abs q < 2 ^ (e + 1) -> (value c r == inject_Z q)%Q).
Proof.
  intros V X AF E Ra Rb Va Vb. pose proof (add_mul c AF) as MF.
  assert (K : forall x n, (x == inject_Z n)%Q -> Z.abs n < 2 ^ (e + 1) -> exists w, real c w /\ (value c w == x)%Q).
  { intros x n Ex B. destruct (int_posit c V e n E B) as (w & R & W). exists w. split; [exact R|]. rewrite W. symmetry. exact Ex. }
  split; [|split; [|split]].
  - intros r O B. assert (S : (value c a + value c b == inject_Z (i + j))%Q) by (rewrite Va, Vb, inject_Z_plus; reflexivity). rewrite <- S.
    apply (faithful_is c _ r); [apply (p_add_faithful c a b r V X AF Ra Rb O)|apply (K _ _ S B)].
  - intros r O B. assert (S : (value c a - value c b == inject_Z (i - j))%Q) by (unfold Z.sub; rewrite Va, Vb, inject_Z_plus, inject_Z_opp; reflexivity). rewrite <- S.
    apply (faithful_is c _ r); [apply (sub_any c a b r V X AF Ra Rb O)|apply (K _ _ S B)].
  - intros r O B. assert (S : (value c a * value c b == inject_Z (i * j))%Q) by (rewrite Va, Vb, inject_Z_mult; reflexivity). rewrite <- S.
    apply (tz_is c _ r V); [exact (by_room V (mul_total c a b V X MF Ra Rb) O)|apply (K _ _ S B)].
  - intros r q O NJ EQ B. assert (NQ : ~ (inject_Z j == 0)%Q) by (intros H; apply NJ; unfold Qeq in H; cbn in H; lia).
    assert (NB : b <> 0) by (intros ->; apply NQ; rewrite <- Vb; reflexivity).
    assert (S : (value c a / value c b == inject_Z q)%Q) by (rewrite Va, Vb, EQ, inject_Z_mult; field; exact NQ). rewrite <- S.
    apply (tz_is c _ r V); [exact (by_room V (div_total c a b V X MF Ra Rb NB) O)|apply (K _ _ S B)].
Qed.
Lemma from_int c e i : valid_cfg c -> exp_ok c -> frac_fits c \/ 32 <= cF c -> 0 <= e <= fracbits c e -> Z.abs i < 2 ^ (e + 1) -> - 2 ^ 31 < i < 2 ^ 31 ->
  (exists v, real c v /\ (value c v == inject_Z i)%Q) /\
  (forall r, p_of_int c i = Ok r -> (value c r == inject_Z i)%Q) /\ (roomy c -> exists r, p_of_int c i = Ok r).
Proof.
  intros V X FF E B B31. pose proof (int_posit c V e i E B) as K. split; [exact K|]. split.
  - intros r O. apply (tz_is c _ r V); [exact (by_room V (of_int c i V X FF B31) O)|exact K].
  - intros Rm. destruct (proj1 (of_int c i V X FF B31) (roomy_room c _ V Rm)) as (r & O & _). exists r. exact O.
Qed.
(** Zero results. *)
Lemma tz_zero c x r : valid_cfg c -> rounds_tz c x r -> (r = 0 <-> (x == 0)%Q).
Proof.
  intros V H. vcb V. pose proof (value_0 c BN Bes) as V0. destruct H as [[H1 H2]|[[H1 (R & P & _)]|[H1 (R & P & _)]]]; split; intros Z; try assumption; try lra.
  - subst r. rewrite V0 in P. lra.
  - subst r. change (- 0) with 0 in P. rewrite V0 in P. lra.
Qed.
Lemma zero_results c a b r : valid_cfg c -> exp_ok c -> real c a -> real c b ->
  (add_fits c -> p_sub c a b = Ok r -> (r = 0 <-> a = b)) /\
  (add_fits c -> p_add c a b = Ok r -> (r = 0 <-> a = - b)) /\
  (mul_fits c -> p_mul c a b = Ok r -> (r = 0 <-> a = 0 \/ b = 0)) /\
  (mul_fits c -> b <> 0 -> p_div c a b = Ok r -> (r = 0 <-> a = 0)).
Proof.
  intros V X Ra Rb. vcb V. pose proof (value_0 c BN Bes) as V0.
  assert (R0 : real c 0) by (unfold real; pose proof (maxreal_bounds c BN Bes); lia).
  assert (INJ : forall u v, real c u -> real c v -> ((value c u == value c v)%Q <-> u = v)) by (intros u v Ru Rv; split; [apply (value_inj c BN Bes); apply (real_bounds c BN Bes); assumption|intros ->; reflexivity]).
  assert (NZ : forall u, real c u -> ((value c u == 0)%Q <-> u = 0)) by (intros u Ru; rewrite <- (INJ u 0 Ru R0), V0; reflexivity).
  split; [|split; [|split]].
  - intros AF O. destruct (sub_any c a b r V X AF Ra Rb O) as (_ & S & _). rewrite S, <- (INJ a b Ra Rb). split; intros H; lra.
  - intros AF O. destruct (p_add_faithful c a b r V X AF Ra Rb O) as (_ & S & _). rewrite S, <- (INJ a (- b) Ra (real_opp c BN Bes b Rb)), (value_opp c BN Bes). split; intros H; lra.
  - intros MF O. rewrite (tz_zero c _ r V (by_room V (mul_total c a b V X MF Ra Rb) O)), <- (NZ a Ra), <- (NZ b Rb). split; [apply Qmult_integral|intros [H|H]; rewrite H; ring].
  - intros MF Nb O. rewrite (tz_zero c _ r V (by_room V (div_total c a b V X MF Ra Rb Nb) O)), <- (NZ a Ra). assert (Nv : ~ (value c b == 0)%Q) by (rewrite (NZ b Rb); exact Nb). split; intros H.
    + assert (E : (value c a == value c a / value c b * value c b)%Q) by (field; exact Nv). rewrite E, H. ring.
    + rewrite H. field. exact Nv.
Qed.
