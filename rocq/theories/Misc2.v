(** std::min, std::max, std::sqrt and the operations of Unpacked. *)
From Coq Require Import ZArith QArith Qabs Lia Lqa Bool.
From Verif Require Import Res CInt Bits Cfg Spec Posit Unpacked Traits QPow Core SpecLemmas Arith DecodeProof EncodeProof UOps UAdd Ops Room Laws Configs Final1 Final2 Final4.
Open Scope Z_scope.

Lemma min_max c a b : valid_cfg c -> real c a -> real c b ->
  (p_stdmin c a b = a \/ p_stdmin c a b = b) /\ (p_stdmax c a b = a \/ p_stdmax c a b = b) /\
  (value c (p_stdmin c a b) <= value c a)%Q /\ (value c (p_stdmin c a b) <= value c b)%Q /\
  (value c a <= value c (p_stdmax c a b))%Q /\ (value c b <= value c (p_stdmax c a b))%Q.
Proof.
  intros V A B. destruct (compare_real c a b V A B) as (_ & L & _ & G & _). unfold p_stdmin, p_stdmax.
  assert (L' : p_le c a b = false -> (value c b <= value c a)%Q).
  { intros E. apply Qlt_le_weak, Qnot_le_lt. intros X. apply L in X. congruence. }
  assert (G' : p_ge c a b = false -> (value c a <= value c b)%Q).
  { intros E. apply Qlt_le_weak, Qnot_le_lt. intros X. apply G in X. congruence. }
  destruct (p_le c a b); destruct (p_ge c a b); repeat split; auto using Qle_refl; try (apply L'; reflexivity); try (apply G'; reflexivity); try (apply L; reflexivity); apply G; reflexivity.
Qed.
Lemma sqrt_abs c v : p_sqrt c v = p_abs c v.
Proof. reflexivity. Qed.
Lemma sqrt_fixed c v : valid_cfg c -> real c v -> (value c v == 0)%Q \/ (value c v == 1)%Q ->
  exists r, p_sqrt c v = Ok r /\ real c r /\ (value c r * value c r == value c v)%Q.
Proof.
  intros V R C. rewrite sqrt_abs. destruct (abs_real c v V R) as (r & E & Rr & Er). exists r. split; [assumption|]. split; [assumption|].
  rewrite Er. destruct C as [C|C]; rewrite C; reflexivity.
Qed.
Lemma sqrt_bad : exists r, real p16 0x5800 /\ (value p16 0x5800 == 3)%Q /\ p_sqrt p16 0x5800 = Ok r /\ (value p16 r * value p16 r == 9)%Q /\
  p_mul p16 r r <> Ok 0x5800.
Proof. exists 0x5800. vm_compute. repeat split; discriminate. Qed.

(** Unpacked: comparison and negation. *)
Lemma uvalue_inj F n e f n' e' f' : 0 < F -> 0 <= f < 2 ^ F -> 0 <= f' < 2 ^ F ->
  (uvalue F n e f == uvalue F n' e' f')%Q -> n = n' /\ e = e' /\ f = f'.
Proof.
  intros HF B B' Q. rewrite !uvalue_uval in Q by lia. unfold uval in Q.
  pose proof (uabs_pos F e f ltac:(lia) ltac:(lia)). pose proof (uabs_pos F e' f' ltac:(lia) ltac:(lia)).
  assert (n = n' /\ (uabs F e f == uabs F e' f')%Q) as [-> U].
  { destruct n, n'; split; try reflexivity; try (exfalso; lra); lra. }
  split; [reflexivity|]. unfold uabs in U. rewrite !dy_lval in U by assumption.
  assert (Y : e * 2 ^ F + f = e' * 2 ^ F + f').
  { assert (L1 := lval_le_inv F (e * 2 ^ F + f) (e' * 2 ^ F + f') ltac:(lia)). assert (L2 := lval_le_inv F (e' * 2 ^ F + f') (e * 2 ^ F + f) ltac:(lia)).
    apply Z.le_antisymm; [apply L1|apply L2]; rewrite U; apply Qle_refl. }
  pow_pos 2 F. assert (e = e') by (apply (f_equal (fun z => z / 2 ^ F)) in Y; rewrite !(Z.add_comm (_ * _)), !Z.div_add, !Z.div_small in Y by lia; lia).
  subst. split; [reflexivity|lia].
Qed.
Lemma eq_regular F n e f n' e' f' : 0 < F -> 0 <= f < 2 ^ F -> 0 <= f' < 2 ^ F ->
  (u_eq (U Regular n e f) (U Regular n' e' f') = true <-> (uvalue F n e f == uvalue F n' e' f')%Q).
Proof.
  intros HF B B'. unfold u_eq. cbn. rewrite !andb_true_iff, !Z.eqb_eq, Bool.eqb_true_iff. split.
  - intros [[-> _] [-> ->]]. reflexivity.
  - intros Q. destruct (uvalue_inj _ _ _ _ _ _ _ HF B B' Q) as (-> & -> & ->). repeat split.
Qed.
Lemma eq_special a b : utyp a <> Regular \/ utyp b <> Regular ->
  (u_eq a b = true <-> utyp a <> NaN /\ utyp a = utyp b /\ uneg a = uneg b).
Proof.
  destruct a as [ta na ea fa], b as [tb nb eb fb]. cbn. unfold u_eq; cbn.
  intros C. destruct ta, tb, na, nb; cbn; split; try discriminate; try (intros (A1 & A2 & A3)); try discriminate; try congruence; try (intros _; repeat split; discriminate); auto; destruct C; congruence.
Qed.
Lemma ne_is_eq a b : utyp a <> NaN -> utyp b <> NaN -> u_ne a b = u_eq a b.
Proof. destruct a as [[] na ea fa], b as [[] nb eb fb]; cbn; intros; try congruence; reflexivity. Qed.
Lemma ne_nan a b : utyp a = NaN \/ utyp b = NaN -> u_ne a b = negb (u_eq a b).
Proof. destruct a as [[] na ea fa], b as [[] nb eb fb]; cbn; intros []; try congruence; reflexivity. Qed.
Lemma ne_bad : exists a b, u_ne a b <> negb (u_eq a b).
Proof. exists u_one, u_one. discriminate. Qed.

Lemma neg_regular F E n e f : is_width F -> is_width E -> 0 <= f < 2 ^ F -> - 2 ^ (E - 1) <= e < 2 ^ (E - 1) ->
  exists n', u_neg F E (U Regular n e f) = U Regular n' e f /\ (uvalue F n' e f == - uvalue F n e f)%Q.
Proof.
  intros WF WE Bf Be. pose proof (is_width_pos _ WF). pose proof (is_width_pos _ WE). exists (negb n). unfold u_neg, u_mk. cbn [uexp ufrac uneg].
  rewrite cast_s_small, cast_u_small by lia. split; [reflexivity|]. unfold uvalue. destruct n; cbn; ring.
Qed.
(** Negation turns every special into -1 or 1. *)
Lemma neg_special F E t n : is_width F -> is_width E -> t <> Regular ->
  u_neg F E (u_special t n) = U Regular (negb n) 0 0.
Proof.
  intros WF WE T. unfold u_neg, u_mk, u_special. cbn [uexp ufrac uneg].
  destruct WF as [->|[->|[->| ->]]], WE as [->|[->|[->| ->]]]; reflexivity.
Qed.
Lemma sub_zero_bad : exists a r : unpacked, a = U Regular false 3 0 /\ (uvalue 32 false 3 0 == 8)%Q /\
  u_sub 32 16 a u_zero = Ok r /\ r = U Regular false 2 0xc0000000 /\ (uvalue 32 false 2 0xc0000000 == 7)%Q.
Proof. eexists _, _. split; [reflexivity|]. vm_compute. repeat split. Qed.

(** Error bounds of multiplication, division and reciprocal. *)
Lemma cut_bound F e f : 0 < F -> 0 <= f < 2 ^ F ->
  (dy (2 ^ F + 2 * (f / 2)) (e - F) <= uabs F e f)%Q /\ ((1 - pow2 (- F)) * uabs F e f <= dy (2 ^ F + 2 * (f / 2)) (e - F))%Q /\
  (f mod 2 = 0 -> (dy (2 ^ F + 2 * (f / 2)) (e - F) == uabs F e f)%Q).
Proof.
  intros HF B. unfold uabs. pose proof (Z.div_mod f 2 ltac:(lia)) as DM. pose proof (Z.mod_pos_bound f 2 ltac:(lia)) as MB.
  split; [apply dy_le; lia|]. split.
  - assert (L : (dy (2 ^ F + f) (e - F) <= dy (2 ^ F + 2 * (f / 2) + 1) (e - F))%Q) by (apply dy_le; lia).
    rewrite <- (dy_add (2 ^ F + 2 * (f / 2)) 1) in L. assert (G : (pow2 e <= dy (2 ^ F + f) (e - F))%Q).
    { assert (D : (pow2 e == dy (2 ^ F) (e - F))%Q) by (rewrite <- (Z.mul_1_l (2 ^ F)), dy_pow by lia; replace (e - F + F) with e by lia; unfold dy; ring).
      rewrite D. apply dy_le. lia. }
    assert (P : (dy 1 (e - F) == pow2 (- F) * pow2 e)%Q) by (unfold dy; rewrite pow2_sub, pow2_opp; field; apply pow2_nz).
    rewrite P in L. pose proof (pow2_pos (- F)). set (x := dy (2 ^ F + f) (e - F)) in *. set (q := pow2 (- F)) in *. set (p := pow2 e) in *. clearbody x q p.
    assert (q * p <= q * x)%Q by (apply Qmult_le_l; assumption). lra.
  - intros M. rewrite M, Z.add_0_r in DM. rewrite <- DM. reflexivity.
Qed.
Lemma cell_bound F e f j x : 0 <= F -> cell F e f j x -> (uabs F e f <= x)%Q /\ ((1 - pow2 (j - F)) * x <= uabs F e f)%Q.
Proof.
  intros HF (B & J & _ & L & U). split; [assumption|]. 
  assert (D : (dy (2 ^ F + f + 2 ^ j) (e - F) == uabs F e f + pow2 (j - F) * pow2 e)%Q).
  { unfold uabs. rewrite <- (dy_add (2 ^ F + f) (2 ^ j)). rewrite <- (Z.mul_1_l (2 ^ j)), dy_pow by lia. unfold dy. rewrite !pow2_plus, !pow2_sub. field. apply pow2_nz. }
  rewrite D in U. assert (G : (pow2 e <= uabs F e f)%Q).
  { assert (D1 : (pow2 e == dy (2 ^ F) (e - F))%Q) by (rewrite <- (Z.mul_1_l (2 ^ F)), dy_pow by lia; replace (e - F + F) with e by lia; unfold dy; ring).
    rewrite D1. apply dy_le. lia. }
  pose proof (pow2_pos (j - F)). set (q := pow2 (j - F)) in *. set (p := pow2 e) in *. set (r := uabs F e f) in *. clearbody q p r.
  assert (q * p <= q * x)%Q by (apply Qmult_le_l; [assumption|lra]). lra.
Qed.
Lemma uvalue_abs F n e f : 0 <= F -> 0 <= f < 2 ^ F -> (Qabs (uvalue F n e f) == uabs F e f)%Q.
Proof.
  intros HF B. rewrite uvalue_uval by lia. pose proof (uabs_pos F e f HF ltac:(lia)). unfold uval. destruct n; [rewrite Qabs_opp|]; apply Qabs_pos; lra.
Qed.
Lemma qle1 F j : j <= F -> (pow2 (j - F) <= 1)%Q.
Proof. intros H. change 1%Q with (pow2 0). apply pow2_le. lia. Qed.

Lemma mul_error F E na nb ea eb fa fb : is_width F -> is_width E -> 0 <= fa < 2 ^ F -> 0 <= fb < 2 ^ F ->
  - 2 ^ (E - 1) <= ea + eb -> ea + eb + 1 < 2 ^ (E - 1) ->
  exists e f, u_mul F E (U Regular na ea fa) (U Regular nb eb fb) = Ok (U Regular (xorb na nb) e f) /\ 0 <= f < 2 ^ F /\
    let x := (uvalue F na ea fa * uvalue F nb eb fb)%Q in
    let r := uvalue F (xorb na nb) e f in
    (Qabs r <= Qabs x)%Q /\ ((1 - pow2 (3 - F)) * Qabs x <= Qabs r)%Q /\
    (fa mod 2 = 0 -> fb mod 2 = 0 -> ((1 - pow2 (2 - F)) * Qabs x <= Qabs r)%Q).
Proof.
  intros WF WE Ba Bb E1 E2. pose proof (is_width_pos _ WF) as BF.
  destruct (u_mul_spec F E na nb ea eb fa fb WF WE Ba Bb E1 E2) as (e & f & j & R & J & _ & C).
  exists e, f. split; [assumption|]. assert (Bf : 0 <= f < 2 ^ F) by apply C. split; [assumption|]. cbv zeta.
  rewrite Qabs_Qmult, !uvalue_abs by lia.
  apply cell_bound in C; [|lia]. destruct C as [C1 C2].
  destruct (cut_bound F ea fa ltac:(lia) Ba) as (A1 & A2 & A3). destruct (cut_bound F eb fb ltac:(lia) Bb) as (B1 & B2 & B3).
  pose proof (uabs_pos F ea fa ltac:(lia) ltac:(lia)) as PA. pose proof (uabs_pos F eb fb ltac:(lia) ltac:(lia)) as PB.
  pose proof (uabs_pos F e f ltac:(lia) ltac:(lia)) as PR.
  set (A := uabs F ea fa) in *. set (B := uabs F eb fb) in *. set (A' := dy (2 ^ F + 2 * (fa / 2)) (ea - F)) in *. set (B' := dy (2 ^ F + 2 * (fb / 2)) (eb - F)) in *.
  set (r := uabs F e f) in *.
  assert (J2 : (pow2 (j - F) <= pow2 (2 - F))%Q) by (apply pow2_le; lia).
  assert (Q2 : (pow2 (2 - F) == 4 * pow2 (- F))%Q) by (replace (2 - F) with (2 + - F) by lia; rewrite pow2_plus; reflexivity).
  assert (Q3 : (pow2 (3 - F) == 8 * pow2 (- F))%Q) by (replace (3 - F) with (3 + - F) by lia; rewrite pow2_plus; reflexivity).
  pose proof (pow2_pos (- F)) as P. assert (Le : (pow2 (- F) <= 1 # 256)%Q) by (change (1 # 256) with (pow2 (-8)); apply pow2_le; lia).
  rewrite Q3, Q2 in *. set (u := pow2 (- F)) in *. set (pj := pow2 (j - F)) in *.
  assert (A0 : (0 < A')%Q) by (unfold A'; apply dy_pos; assert (0 <= fa / 2) by (apply Z.div_pos; lia); pow_pos 2 F; lia).
  assert (B0 : (0 < B')%Q) by (unfold B'; apply dy_pos; assert (0 <= fb / 2) by (apply Z.div_pos; lia); pow_pos 2 F; lia).
  clearbody A B A' B' r u pj. clear R E1 E2 WF WE Ba Bb Bf.
  assert (U1 : (A' * B' <= A * B)%Q) by nra.
  assert (C3 : ((1 - 4 * u) * (A' * B') <= r)%Q) by (assert (0 < A' * B')%Q by nra; nra).
  split; [lra|]. split.
  - assert (U2 : ((1 - u) * A * ((1 - u) * B) <= A' * B')%Q) by (assert (0 <= (1 - u) * A)%Q by nra; assert (0 <= (1 - u) * B)%Q by nra; nra).
    assert (PAB : (0 < A * B)%Q) by nra. set (x := (A * B)%Q) in *. set (y := (A' * B')%Q) in *.
    assert (U3 : ((1 - 2 * u) * x <= y)%Q). { assert (EX : ((1 - u) * A * ((1 - u) * B) == (1 - 2 * u) * x + u * u * x)%Q) by (unfold x; ring). rewrite EX in U2. assert (0 <= u * u * x)%Q by nra. lra. }
    clearbody x y. assert ((1 - 4 * u) * ((1 - 2 * u) * x) <= (1 - 4 * u) * y)%Q by nra. assert (0 <= u * u * x)%Q by nra. assert (0 < u * x)%Q by nra. nra.
  - intros M1 M2. rewrite (A3 M1), (B3 M2) in C3. exact C3.
Qed.

Lemma div_error F E na nb ea eb fa fb : is_width F -> is_width E -> 0 <= fa < 2 ^ F -> 0 <= fb < 2 ^ F -> fb mod 4 = 0 ->
  - 2 ^ (E - 1) <= ea - eb - 1 -> ea - eb < 2 ^ (E - 1) ->
  exists e f, u_div F E (U Regular na ea fa) (U Regular nb eb fb) = Ok (U Regular (xorb na nb) e f) /\ 0 <= f < 2 ^ F /\
    let x := (uvalue F na ea fa / uvalue F nb eb fb)%Q in
    let r := uvalue F (xorb na nb) e f in
    (Qabs r <= Qabs x)%Q /\ ((1 - pow2 (1 - F)) * Qabs x <= Qabs r)%Q /\
    (fa mod 2 = 0 -> ((1 - pow2 (- F)) * Qabs x <= Qabs r)%Q).
Proof.
  intros WF WE Ba Bb M4 E1 E2. pose proof (is_width_pos _ WF) as BF.
  destruct (u_div_spec F E na nb ea eb fa fb WF WE Ba Bb M4 E1 E2) as (e & f & R & _ & C).
  exists e, f. split; [assumption|]. assert (Bf : 0 <= f < 2 ^ F) by apply C. split; [assumption|]. cbv zeta.
  unfold Qdiv in *. rewrite Qabs_Qmult, Qabs_Qinv, !uvalue_abs by lia.
  apply cell_bound in C; [|lia]. destruct C as [C1 C2].
  destruct (cut_bound F ea fa ltac:(lia) Ba) as (A1 & A2 & A3).
  pose proof (uabs_pos F ea fa ltac:(lia) ltac:(lia)) as PA. pose proof (uabs_pos F eb fb ltac:(lia) ltac:(lia)) as PB.
  set (A := uabs F ea fa) in *. set (B := uabs F eb fb) in *. set (A' := dy (2 ^ F + 2 * (fa / 2)) (ea - F)) in *. set (r := uabs F e f) in *.
  assert (Q1 : (pow2 (1 - F) == 2 * pow2 (- F))%Q) by (replace (1 - F) with (1 + - F) by lia; rewrite pow2_plus; reflexivity).
  pose proof (pow2_pos (- F)) as P. assert (Le : (pow2 (- F) <= 1 # 256)%Q) by (change (1 # 256) with (pow2 (-8)); apply pow2_le; lia).
  change (0 - F) with (- F) in C2. rewrite Q1. set (u := pow2 (- F)) in *. apply Qinv_lt_0_compat in PB. set (I := (/ B)%Q) in *.
  clearbody A A' r u I. clear R E1 E2 WF WE Ba Bb Bf.
  split; [nra|]. split.
  - assert ((1 - u) * A * I <= A' * I)%Q by nra. assert (0 < A * I)%Q by nra. set (y := (A' * I)%Q) in *.
    assert (EX : ((1 - u) * A * I == (1 - u) * (A * I))%Q) by ring. rewrite EX in *. set (x := (A * I)%Q) in *. clearbody x y.
    assert ((1 - u) * ((1 - u) * x) <= (1 - u) * y)%Q by nra. assert (0 <= u * u * x)%Q by nra. nra.
  - intros M. rewrite (A3 M) in C2. exact C2.
Qed.

Lemma inv_error F E na ea fa : is_width F -> is_width E -> 0 <= fa < 2 ^ F -> fa mod 4 = 0 ->
  - 2 ^ (E - 1) <= - ea - 1 -> - ea < 2 ^ (E - 1) ->
  exists e f, u_inv F E (U Regular na ea fa) = Ok (U Regular na e f) /\ 0 <= f < 2 ^ F /\
    (Qabs (uvalue F na e f) <= Qabs (1 / uvalue F na ea fa))%Q /\
    ((1 - pow2 (- F)) * Qabs (1 / uvalue F na ea fa) <= Qabs (uvalue F na e f))%Q.
Proof.
  intros WF WE Ba M4 E1 E2. pose proof (is_width_pos _ WF) as BF. pose proof (is_width_pos _ WE) as BE.
  destruct (Z.eq_dec fa 0) as [->|NZ].
  - exists (- ea), 0. pow_pos 2 F. split.
    { unfold u_inv. cbn [utyp ufrac uexp uneg Z.eqb]. unfold cneg. rewrite pE_arith by (try assumption; lia). cbn [bind]. unfold u_mk. rewrite cast_s_small, cast_u_small by lia. reflexivity. }
    split; [lia|]. assert (X : (Qabs (1 / uvalue F na ea 0) == Qabs (uvalue F na (- ea) 0))%Q).
    { unfold Qdiv. rewrite Qmult_1_l, Qabs_Qinv, !uvalue_abs by lia. unfold uabs. rewrite !Z.add_0_r, <- (Z.mul_1_l (2 ^ F)), !dy_pow by lia.
      replace (ea - F + F) with ea by lia. replace (- ea - F + F) with (- ea) by lia. unfold dy. rewrite !Qmult_1_l, pow2_opp. reflexivity. }
    rewrite X. split; [apply Qle_refl|]. pose proof (Qabs_nonneg (uvalue F na (- ea) 0)). pose proof (pow2_pos (- F)). nra.
  - destruct (u_inv_spec F E na ea fa WF WE ltac:(lia) M4 E1 E2) as (f & R & C). assert (Bf : 0 <= f < 2 ^ F) by apply C.
    exists (- ea - 1), f. split; [assumption|]. split; [assumption|]. apply cell_bound in C; [|lia]. change (0 - F) with (- F) in C.
    unfold Qdiv in *. rewrite Qmult_1_l in *. rewrite Qabs_Qinv, !uvalue_abs by lia. exact C.
Qed.
(** Outside these fractions division can be off by a factor of two: 1 / (1 + 2/256). *)
Lemma div_bad : u_div 8 16 (U Regular false 0 0) (U Regular false 0 2) = Ok (U Regular false (-1) 0) /\
  (uvalue 8 false 0 0 / uvalue 8 false 0 2 == 256 # 258)%Q /\ (uvalue 8 false (-1) 0 == 1 # 2)%Q.
Proof. vm_compute. repeat split. Qed.
