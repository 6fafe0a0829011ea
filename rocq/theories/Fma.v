(** fma and dot: degenerate arguments, and faithful rounding when FT holds the exact product. *)
From Coq Require Import ZArith QArith Qabs Lia Lqa Bool List.
From Verif Require Import Res CInt Bits Traits Unpacked Cfg Posit Spec QPow Core SpecLemmas Arith
  DecodeProof EncodeProof UOps UAdd Ops OpsAdd OpsUnary OpsUnary2 Specials Room Laws Configs Final1 Final2 Examples Final3.
Import ListNotations.
Open Scope Z_scope.

(** A number that is itself on the grid determines its cell. *)
Lemma cell_exact F e f j e0 f0 x : 8 <= F -> 0 <= j <= 2 -> cell F e f j x ->
  0 <= f0 < 2 ^ F -> f0 mod 2 ^ j = 0 -> (x == uabs F e0 f0)%Q -> e = e0 /\ f = f0.
Proof.
  intros HF J [Hf [_ [M [A B]]]] H0 M0 E. pow_pos 2 F.
  assert (PJ : 2 ^ j <= 2 ^ F) by (apply pow2_mono; lia). pow_pos 2 j.
  assert (FJ : f + 2 ^ j <= 2 ^ F).
  { destruct (mod_dvd f j ltac:(lia) M) as [b ->].
    assert (ES : 2 ^ F = 2 ^ (F - j) * 2 ^ j) by (rewrite <- Z.pow_add_r by lia; f_equal; lia).
    rewrite ES in *. assert (b < 2 ^ (F - j)) by nia. nia. }
  unfold uabs in *. rewrite E in A, B.
  replace (2 ^ F + f + 2 ^ j) with (2 ^ F + (f + 2 ^ j)) in B by ring.
  rewrite <- (lval_ef' F e (f + 2 ^ j)) in B by lia. rewrite !dy_lval in A by lia. rewrite dy_lval in B by lia.
  apply lval_le_inv in A; [|lia]. apply lval_lt_inv in B; [|lia].
  assert (MY : (e * 2 ^ F + f) mod 2 ^ j = 0 /\ (e0 * 2 ^ F + f0) mod 2 ^ j = 0).
  { assert (ES : 2 ^ F = 2 ^ (F - j) * 2 ^ j) by (rewrite <- Z.pow_add_r by lia; f_equal; lia).
    rewrite ES. split.
    - rewrite Z.mul_assoc, Z.add_comm, Z.mod_add by lia. assumption.
    - rewrite Z.mul_assoc, Z.add_comm, Z.mod_add by lia. assumption. }
  destruct MY as [M1 M2]. apply mod_dvd in M1; [|lia]. apply mod_dvd in M2; [|lia].
  destruct M1 as [p P1]. destruct M2 as [q Q1]. rewrite P1 in *. 
  replace (e * 2 ^ F + (f + 2 ^ j)) with (p * 2 ^ j + 2 ^ j) in B by lia.
  rewrite Q1 in *. assert (p = q) by nia. subst q.
  assert (e = e0) by nia. subst e0. split; [reflexivity|nia].
Qed.

(** Multiplying by one keeps the unpacked number. *)
Lemma u_mul_one F E n e f : is_width F -> is_width E -> 0 <= f < 2 ^ F -> f mod 4 = 0 ->
  - 2 ^ (E - 1) <= e -> e + 1 < 2 ^ (E - 1) ->
  u_mul F E (U Regular n e f) (U Regular false 0 0) = Ok (U Regular n e f).
Proof.
  intros WF WE Hf M E1 E2. pose proof (is_width_pos F WF). pow_pos 2 F.
  destruct (u_mul_spec F E n false e 0 f 0) as [e' [f' [j [-> [J [_ C]]]]]]; try assumption; try lia.
  rewrite xorb_false_r.
  assert (M2 : f mod 2 = 0).
  { rewrite (Z.div_mod f 4) by lia. rewrite M, Z.add_0_r. replace (4 * (f / 4)) with (f / 4 * 2 * 2) by ring.
    apply Z.mod_mul. lia. }
  assert (MJ : f mod 2 ^ j = 0).
  { assert (EJ : j = 1 \/ j = 2) by lia. destruct EJ as [-> | ->]; assumption. }
  assert (F2 : 2 * (f / 2) = f) by (pose proof (Z.div_mod f 2 ltac:(lia)); lia).
  destruct (cell_exact F e' f' j e f _ ltac:(lia) ltac:(lia) C Hf MJ) as [Q1 Q2]; [|subst; reflexivity].
  rewrite F2. change (2 * (0 / 2)) with 0. unfold uabs.
  assert (ONE : (dy (2 ^ F + 0) (0 - F) == 1)%Q).
  { rewrite Z.add_0_r, <- (Z.mul_1_l (2 ^ F)), dy_pow by lia. replace (0 - F + F) with 0 by lia. reflexivity. }
  rewrite ONE. ring.
Qed.

Lemma u_mul_one_l F E n e f : is_width F -> is_width E -> 0 <= f < 2 ^ F -> f mod 4 = 0 ->
  - 2 ^ (E - 1) <= e -> e + 1 < 2 ^ (E - 1) ->
  u_mul F E (U Regular false 0 0) (U Regular n e f) = Ok (U Regular n e f).
Proof. intros. rewrite u_mul_comm by (assumption || reflexivity). apply u_mul_one; assumption. Qed.

Lemma unpack_one c : valid_cfg c -> mul_fits c -> unpack c (p_one c) = Ok (U Regular false 0 0).
Proof.
  intros V MF. vcb V. pose proof (one_real c V) as OR. pose proof (one_val c V) as OV. rewrite OV.
  destruct (pow_split c V) as [P1 P2]. unfold mul_fits in MF. rewrite <- gran_val in MF.
  destruct (unpack_real c (2 ^ (cN c - 2)) 2 V ltac:(lia) MF OR ltac:(lia)) as [e [f [U1 [Hf [He [M Vv]]]]]].
  assert (S : (2 ^ (cN c - 2) <? 0) = false) by (apply Z.ltb_ge; lia). rewrite S in *. rewrite U1.
  unfold uval, uabs in Vv. rewrite one_value in Vv by assumption. rewrite dy_lval in Vv by assumption.
  rewrite <- pow2_0 in Vv. rewrite <- (lval_pow2 (cF c) 0) in Vv by lia.
  apply lval_eq_inv in Vv; [|lia]. pow_pos 2 (cF c). assert (e = 0) by nia. subst e. f_equal. f_equal. lia.
Qed.

Lemma fma_zero c a b : valid_cfg c -> real c a -> real c b -> p_fma c a b 0 = p_mul c a b.
Proof.
  intros V Ra Rb. vcb V. unfold p_fma, p_mul. rewrite unpack_zero by assumption.
  destruct (unpack c a) as [ua|]; cbn [bind]; [|reflexivity]. destruct (unpack c b) as [ub|]; cbn [bind]; [|reflexivity].
  destruct (u_mul _ _ ua ub) as [m|]; cbn [bind]; [|reflexivity].
  assert (E : u_add (cF c) (c_E c) m (u_special Zero false) = Ok m).
  { unfold u_add. destruct m as [t n e f]. destruct t; reflexivity. }
  rewrite E. reflexivity.
Qed.

(** fma(a,1,d) and fma(1,a,d) against a+d. *)
Lemma fma_one c a d : valid_cfg c -> mul_fits c -> real c a -> real c d -> a <> 0 -> d <> 0 ->
  p_fma c a (p_one c) d = p_add c a d /\ p_fma c (p_one c) a d = p_add c a d.
Proof.
  intros V MF Ra Rd Na Nd. vcb V. unfold p_fma. rewrite unpack_one by assumption.
  pose proof MF as MF'. unfold mul_fits in MF'. rewrite <- gran_val in MF'.
  destruct (unpack_real c a 2 V ltac:(lia) MF' Ra Na) as [e [f [U1 [Hf [He [M Vv]]]]]].
  destruct (emax_bound c V) as [B1 B2].
  rewrite U1. cbn [bind]. rewrite u_mul_one, u_mul_one_l; try assumption; try lia;
    try (apply vc_F; assumption); try (apply c_E_width; assumption).
  cbn [bind]. unfold p_add, iszero. destruct (Z.eqb_spec a 0); [contradiction|]. destruct (Z.eqb_spec d 0); [contradiction|].
  rewrite U1. cbn [bind]. split; reflexivity.
Qed.
Lemma fma_one_all c a d : valid_cfg c -> exp_ok c -> mul_fits c -> roomy c -> real c a -> real c d ->
  p_fma c a (p_one c) d = p_add c a d /\ p_fma c (p_one c) a d = p_add c a d.
Proof.
  intros V X MF Rm Ra Rd. pose proof (mul_fits_frac c MF) as FF.
  destruct (Z.eq_dec d 0) as [->|Nd].
  { pose proof (one_real c V) as OR. rewrite !fma_zero by (try rewrite one_val; assumption).
    destruct (neutral c a V X MF Ra) as [N1 [_ [_ [_ [_ [_ [_ [N2 _]]]]]]]].
    destruct (N2 (roomy_room c _ V Rm)) as [N3 [N4 _]]. rewrite N1, N3, N4. auto. }
  destruct (Z.eq_dec a 0) as [->|Na]; [|apply fma_one; assumption].
  change (p_add c 0 d) with (@Ok Z d).
  unfold p_fma. rewrite unpack_zero, unpack_one by assumption.
  destruct (roundtrip c d V X FF (real_pat c d V Rd)) as [u [E [_ D]]].
  specialize (D (or_intror (roomy_room c _ V Rm))). cbn [bind u_mul u_isNaN utyp u_special utype_eqb orb].
  rewrite E. cbn [bind].
  assert (UA : u_add (cF c) (c_E c) u_zero u = Ok u).
  { vcb V. pose proof FF as FF'. unfold frac_fits in FF'. rewrite <- gran_val in FF'.
    destruct (unpack_real c d 0 V ltac:(lia) ltac:(lia) Rd Nd) as [e1 [f1 [U1 _]]]. rewrite E in U1. injection U1 as ->.
    reflexivity. }
  rewrite UA. cbn [bind]. auto.
Qed.

(** ** FT wide enough for the exact product *)

Lemma grid F j f : 0 <= j <= F -> 0 <= f < 2 ^ F -> f mod 2 ^ (F - j) = 0 ->
  exists a, 0 <= a < 2 ^ j /\ f = a * 2 ^ (F - j).
Proof.
  intros J Hf M. destruct (mod_dvd f (F - j) ltac:(lia) M) as [a ->]. exists a. split; [|reflexivity].
  pow_pos 2 (F - j). assert (E : 2 ^ F = 2 ^ j * 2 ^ (F - j)) by (rewrite <- Z.pow_add_r by lia; f_equal; lia).
  rewrite E in Hf. nia.
Qed.

Lemma u_mul_exact F E g na nb ea eb fa fb : is_width F -> is_width E -> 0 <= g -> 2 * g + 5 <= F ->
  0 <= fa < 2 ^ F -> 0 <= fb < 2 ^ F -> fa mod 2 ^ (F - g) = 0 -> fb mod 2 ^ (F - g) = 0 ->
  - 2 ^ (E - 1) <= ea + eb -> ea + eb + 1 < 2 ^ (E - 1) ->
  exists e f, u_mul F E (U Regular na ea fa) (U Regular nb eb fb) = Ok (U Regular (xorb na nb) e f) /\
    ea + eb <= e <= ea + eb + 1 /\ 0 <= f < 2 ^ F /\ f mod 16 = 0 /\
    (uabs F e f == uabs F ea fa * uabs F eb fb)%Q.
Proof.
  intros WF WE G L Ha Hb Ma Mb E1 E2. pose proof (is_width_pos F WF) as BF.
  destruct (u_mul_spec F E na nb ea eb fa fb) as [e [f [j [-> [J [Be C]]]]]]; try assumption.
  exists e, f. split; [reflexivity|]. split; [assumption|]. split; [apply C|].
  destruct (grid F g fa ltac:(lia) Ha Ma) as [a [Ba Ea]]. destruct (grid F g fb ltac:(lia) Hb Mb) as [b [Bb Eb]].
  assert (EV : forall z, 2 * (z * 2 ^ (F - g) / 2) = z * 2 ^ (F - g)).
  { intros z. replace (F - g) with ((F - g - 1) + 1) by lia. rewrite pow2_S by lia.
    replace (z * (2 * 2 ^ (F - g - 1))) with (z * 2 ^ (F - g - 1) * 2) by ring. rewrite Z.div_mul by lia. ring. }
  rewrite Ea, Eb in C. rewrite !EV in C. rewrite <- Ea, <- Eb in C.
  change (dy (2 ^ F + fa) (ea - F)) with (uabs F ea fa) in C. change (dy (2 ^ F + fb) (eb - F)) with (uabs F eb fb) in C.
  pow_pos 2 g. pow_pos 2 (F - g).
  assert (EF : 2 ^ F = 2 ^ g * 2 ^ (F - g)) by (rewrite <- Z.pow_add_r by lia; f_equal; lia).
  set (P := (2 ^ g + a) * (2 ^ g + b)).
  assert (PV : (uabs F ea fa * uabs F eb fb == dy P (ea + eb - 2 * g))%Q).
  { unfold uabs. rewrite Ea, Eb, EF. rewrite <- !Z.mul_add_distr_r. rewrite !dy_pow by lia. rewrite dy_mul.
    replace (ea - F + (F - g) + (eb - F + (F - g))) with (ea + eb - 2 * g) by lia. reflexivity. }
  assert (E2g : 2 ^ (2 * g) = 2 ^ g * 2 ^ g) by (rewrite <- Z.pow_add_r by lia; f_equal; lia).
  assert (BP : 2 ^ (2 * g) <= P < 4 * 2 ^ (2 * g)) by (unfold P; rewrite E2g; clear - Ba Bb H; nia).
  assert (KEY : exists e0 f0, 0 <= f0 < 2 ^ F /\ f0 mod 16 = 0 /\ (uabs F e0 f0 == dy P (ea + eb - 2 * g))%Q).
  { assert (E16 : forall k, 4 <= k -> 2 ^ k = 2 ^ (k - 4) * 16) by
      (intros k K; change 16 with (2 ^ 4); rewrite <- Z.pow_add_r by lia; f_equal; lia).
    destruct (Z_lt_le_dec P (2 * 2 ^ (2 * g))) as [LT|GE].
    - assert (EF0 : 2 ^ F = 2 ^ (2 * g) * 2 ^ (F - 2 * g)) by (rewrite <- Z.pow_add_r by lia; f_equal; lia).
      pow_pos 2 (F - 2 * g).
      exists (ea + eb), ((P - 2 ^ (2 * g)) * 2 ^ (F - 2 * g)). split; [rewrite EF0; clear - BP LT H1; nia|].
      split; [rewrite (E16 (F - 2 * g)), Z.mul_assoc by lia; apply Z.mod_mul; lia|].
      unfold uabs. rewrite EF0 at 1. rewrite <- Z.mul_add_distr_r. replace (2 ^ (2 * g) + (P - 2 ^ (2 * g))) with P by ring.
      rewrite dy_pow by lia. replace (ea + eb - F + (F - 2 * g)) with (ea + eb - 2 * g) by lia. reflexivity.
    - assert (EF0 : 2 ^ F = 2 * 2 ^ (2 * g) * 2 ^ (F - 2 * g - 1)).
      { rewrite <- pow2_S by lia. rewrite <- Z.pow_add_r by lia. f_equal. lia. }
      pow_pos 2 (F - 2 * g - 1).
      exists (ea + eb + 1), ((P - 2 * 2 ^ (2 * g)) * 2 ^ (F - 2 * g - 1)). split; [rewrite EF0; clear - BP GE H1; nia|].
      split; [rewrite (E16 (F - 2 * g - 1)), Z.mul_assoc by lia; apply Z.mod_mul; lia|].
      unfold uabs. rewrite EF0 at 1. rewrite <- Z.mul_add_distr_r.
      replace (2 * 2 ^ (2 * g) + (P - 2 * 2 ^ (2 * g))) with P by ring.
      rewrite dy_pow by lia. replace (ea + eb + 1 - F + (F - 2 * g - 1)) with (ea + eb - 2 * g) by lia. reflexivity. }
  destruct KEY as [e0 [f0 [Hf0 [M0 V0]]]].
  assert (MJ : f0 mod 2 ^ j = 0).
  { apply Z.mod_divide in M0; [|lia]. destruct M0 as [q ->].
    assert (EJ : j = 1 \/ j = 2) by lia. destruct EJ as [-> | ->].
    - change (2 ^ 1) with 2. replace (q * 16) with (q * 8 * 2) by ring. apply Z.mod_mul. lia.
    - change (2 ^ 2) with 4. replace (q * 16) with (q * 4 * 4) by ring. apply Z.mod_mul. lia. }
  destruct (cell_exact F e f j e0 f0 _ ltac:(lia) ltac:(lia) C Hf0 MJ) as [-> ->]; [rewrite PV, V0; reflexivity|].
  split; [assumption|]. rewrite PV. assumption.
Qed.

(** Sum of two unpacked numbers with four clear low bits, packed. *)
Section SumPack.
Variables (c : cfg) (na nb : bool) (ea eb fa fb : Z).
Hypothesis (V : valid_cfg c) (X : exp_ok c) (AF : add_fits c).
Hypothesis (Ha : 0 <= fa < 2 ^ cF c) (Hb : 0 <= fb < 2 ^ cF c) (Ma : fa mod 16 = 0) (Mb : fb mod 16 = 0).
Hypothesis (D1 : - 2 ^ (c_E c - 1) <= ea - eb < 2 ^ (c_E c - 1)) (D2 : - 2 ^ (c_E c - 1) <= eb - ea < 2 ^ (c_E c - 1)).
Hypothesis (D3 : Z.max ea eb + 1 < 2 ^ (c_E c - 1)) (D4 : - 2 ^ (c_E c - 1) <= Z.max ea eb - cF c).

Let s := bind (u_add (cF c) (c_E c) (U Regular na ea fa) (U Regular nb eb fb)) (pack_posit c).
Let q : Q := (uval (cF c) na ea fa + uval (cF c) nb eb fb)%Q.

Lemma sum_pack : Z.abs (ea - eb) < Z.max 32 (cF c) ->
  (forall r, s = Ok r -> faithful c q r /\ sign_ok q r) /\ (room_up c q -> exists r, s = Ok r).
Proof using All.
  intros D. vcb V. pose proof (vc_F c V) as WF. pose proof (c_E_width c V) as WE.
  assert (GF : gran c + 3 <= cF c) by (rewrite gran_val; apply AF).
  assert (M8a : fa mod 8 = 0) by (apply Z.mod_divide in Ma; [|lia]; destruct Ma as [z ->];
    replace (z * 16) with (z * 2 * 8) by ring; apply Z.mod_mul; lia).
  assert (M8b : fb mod 8 = 0) by (apply Z.mod_divide in Mb; [|lia]; destruct Mb as [z ->];
    replace (z * 16) with (z * 2 * 8) by ring; apply Z.mod_mul; lia).
  assert (M4a : fa mod 4 = 0) by (apply Z.mod_divide in Ma; [|lia]; destruct Ma as [z ->];
    replace (z * 16) with (z * 4 * 4) by ring; apply Z.mod_mul; lia).
  assert (M4b : fb mod 4 = 0) by (apply Z.mod_divide in Mb; [|lia]; destruct Mb as [z ->];
    replace (z * 16) with (z * 4 * 4) by ring; apply Z.mod_mul; lia).
  destruct (Bool.bool_dec na nb) as [SS|OS].
  - unfold s, q. rewrite <- SS.
    destruct (u_add_same (cF c) (c_E c) na ea eb fa fb) as [e [f [j [-> [J [_ C]]]]]]; try assumption; try (unfold pw; lia).
    cbn [bind].
    assert (Q : (uval (cF c) na ea fa + uval (cF c) na eb fb == sgq na (uabs (cF c) ea fa + uabs (cF c) eb fb))%Q)
      by (rewrite !uval_abs; apply sgq_add).
    destruct (cell_outcome c _ na e f j _ _ V X ltac:(lia) ltac:(lia) eq_refl C Q) as [A _].
    split.
    + intros r P. pose proof (cell_rounds c na e f j _ r V X ltac:(lia) C P) as R.
      assert (R' : rounds_tz c (uval (cF c) na ea fa + uval (cF c) na eb fb) r)
        by (eapply rounds_tz_comp; [assumption|assumption|symmetry; exact Q|assumption]).
      split; [apply rounds_faithful; assumption|apply (rounds_sign_ok c); assumption].
    + intros RU. apply A. destruct RU as [Z0|[k [S [R1 R2]]]]; [left; assumption|right; eauto].
  - assert (NB : nb = negb na) by (destruct na, nb; cbn; congruence). unfold s, q. rewrite NB.
    destruct (u_add_opp (cF c) (c_E c) na ea eb fa fb) as [[-> EQ]|[n [e [f [J [x [-> [_ [C VX]]]]]]]]];
      try assumption; try (right; split; assumption); try (unfold pw; lia).
    + cbn [bind]. change (pack_posit c (u_special Zero false)) with (@Ok Z 0). split; [|eauto].
      intros r P. injection P as <-.
      assert (Z0 : (uval (cF c) na ea fa + uval (cF c) (negb na) eb fb == 0)%Q).
      { unfold uval. destruct na; cbn [negb]; rewrite EQ; ring. }
      split; [eapply faithful_comp; [symmetry; exact Z0|]; apply faithful_zero; assumption|].
      unfold sign_ok. rewrite Z0. split; [|split]; split; intros; try lia; try lra; reflexivity.
    + cbn [bind]. assert (Q : (uval (cF c) na ea fa + uval (cF c) (negb na) eb fb == sgq n x)%Q)
        by (rewrite VX; destruct n; reflexivity).
      split.
      * intros r P. split.
        -- eapply faithful_comp; [symmetry; exact Q|]. apply (cellb_faithful c n e f J x); assumption.
        -- pose proof (cellb_sign c n e f J x r V X C P) as SO. unfold sign_ok in *. rewrite Q. assumption.
      * intros RU. apply pack_room_defined; try assumption; [apply C|].
        destruct (cellb_scale (cF c) n e f J x ltac:(lia) C) as [S|S];
          (eapply scale_comp in S; [|symmetry; exact Q]); destruct RU as [Z0|[e' [S' [R1 R2]]]];
          try (exfalso; eapply scale_nz; eassumption).
        -- rewrite (scale_unique _ e e') by eassumption. assumption.
        -- replace e with (e' + 1); [assumption|]. pose proof (scale_unique _ _ _ S S'). lia.
Qed.
Lemma sum_far : Z.max 32 (cF c) <= Z.abs (ea - eb) -> s = UB ShiftCount.
Proof using V Ha Hb D1 D2 D3 D4.
  intros D. unfold s. vcb V. pose proof (vc_F c V). pose proof (c_E_width c V).
  rewrite u_add_ub; try assumption; try (unfold pw; lia). reflexivity.
Qed.
End SumPack.

Lemma fma_fits_add c : valid_cfg c -> fma_fits c -> add_fits c.
Proof. intros V F. vcb V. unfold fma_fits, add_fits in *. lia. Qed.
Lemma faithful_exact c v : valid_cfg c -> real c v -> faithful c (value c v) v /\ sign_ok (value c v) v.
Proof.
  intros V R. vcb V. assert (T : rounds_tz c (value c v) v) by (apply rounds_tz_exact; assumption).
  split; [apply rounds_faithful; assumption|apply (rounds_sign_ok c); assumption].
Qed.
Lemma fma_faithful c a b d : valid_cfg c -> exp_ok c -> fma_fits c -> real c a -> real c b -> real c d ->
  (forall r, p_fma c a b d = Ok r ->
     faithful c (value c a * value c b + value c d) r /\ sign_ok (value c a * value c b + value c d) r) /\
  (near c (value c a * value c b) (value c d) -> room_up c (value c a * value c b + value c d) ->
     exists r, p_fma c a b d = Ok r) /\
  (~ near c (value c a * value c b) (value c d) -> p_fma c a b d = UB ShiftCount).
Proof.
  intros V X FM Ra Rb Rd. vcb V. pose proof (fma_fits_add c V FM) as AF. pose proof (add_fits_mul c AF) as MF.
  pose proof (mul_fits_frac c MF) as FF.
  assert (UPR : forall x, room_up c x -> room c x).
  { intros x [Z0|[e [S [R1 R2]]]]; [left; assumption|right; eauto]. }
  destruct (Z.eq_dec d 0) as [->|Nd].
  { rewrite fma_zero by assumption.
    assert (E : (value c a * value c b + value c 0 == value c a * value c b)%Q) by (rewrite v0; ring).
    split; [|split].
    - intros r P. pose proof (p_mul_rounds c a b V X MF Ra Rb r P) as T.
      assert (T' : rounds_tz c (value c a * value c b + value c 0) r)
        by (eapply rounds_tz_comp; [assumption|assumption|symmetry; exact E|exact T]).
      split; [apply rounds_faithful; assumption|apply (rounds_sign_ok c); assumption].
    - intros _ RU. apply p_mul_room; try assumption. eapply room_comp; [exact E|]. apply UPR, RU.
    - intros NN. exfalso. apply NN. intros e1 e2 _ S. exfalso. eapply scale_nz; [exact S|apply v0]. }
  assert (DEC : (a = 0 \/ b = 0) \/ (a <> 0 /\ b <> 0)) by lia.
  destruct DEC as [ZZ|[Na Nb]].
  { assert (E : (value c a * value c b == 0)%Q) by (destruct ZZ as [-> | ->]; rewrite v0; ring).
    assert (E' : (value c a * value c b + value c d == value c d)%Q) by (rewrite E; ring).
    destruct (roundtrip c d V X FF (real_pat c d V Rd)) as [u [Eu [R1 R2]]].
    assert (PF : p_fma c a b d = pack_posit c u).
    { unfold p_fma. destruct (unpack_Ok c a V (real_pat c a V Ra)) as [ua Ea].
      destruct (unpack_Ok c b V (real_pat c b V Rb)) as [ub Eb]. rewrite Ea, Eb, Eu. cbn [bind].
      assert (MZ : u_mul (cF c) (c_E c) ua ub = Ok u_zero).
      { assert (K : forall v w, real c v -> unpack c v = Ok w -> w = U Zero false 0 0 \/ exists n e f, w = U Regular n e f).
        { intros v w Rv Ev. destruct (Z.eq_dec v 0) as [->|Nv].
          - rewrite unpack_zero in Ev by assumption. injection Ev as <-. left. reflexivity.
          - right. pose proof FF as FF'. unfold frac_fits in FF'. rewrite <- gran_val in FF'.
            destruct (unpack_real c v 0 V ltac:(lia) ltac:(lia) Rv Nv) as [e1 [f1 [U1 _]]].
            rewrite Ev in U1. injection U1 as ->. eauto. }
        destruct ZZ as [-> | ->].
        - rewrite unpack_zero in Ea by assumption. injection Ea as <-.
          destruct (K b ub Rb Eb) as [-> |[n [e [f ->]]]]; reflexivity.
        - rewrite unpack_zero in Eb by assumption. injection Eb as <-.
          destruct (K a ua Ra Ea) as [-> |[n [e [f ->]]]]; reflexivity. }
      rewrite MZ. cbn [bind].
      pose proof FF as FF'. unfold frac_fits in FF'. rewrite <- gran_val in FF'.
      destruct (unpack_real c d 0 V ltac:(lia) ltac:(lia) Rd Nd) as [e1 [f1 [U1 _]]].
      rewrite Eu in U1. injection U1 as ->. reflexivity. }
    rewrite PF. destruct (faithful_exact c d V Rd) as [F1 F2]. split; [|split].
    - intros r P. rewrite (R1 r P). split; [eapply faithful_comp; [symmetry; exact E'|assumption]|].
      unfold sign_ok in *. rewrite E'. assumption.
    - intros _ RU. exists d. apply R2. right. eapply room_comp; [exact E'|]. apply UPR, RU.
    - intros NN. exfalso. apply NN. intros e1 e2 S _. exfalso. eapply scale_nz; [exact S|assumption]. }
  (* all three nonzero *)
  unfold fma_fits in FM. rewrite <- (gran_val c) in FM. pose proof (gran_nonneg c BN Bes) as G.
  assert (FG : gran c + (cF c - gran c) <= cF c) by lia.
  destruct (unpack_real c a (cF c - gran c) V ltac:(lia) FG Ra Na) as [e1 [f1 [U1 [H1 [E1 [M1 V1]]]]]].
  destruct (unpack_real c b (cF c - gran c) V ltac:(lia) FG Rb Nb) as [e2 [f2 [U2 [H2 [E2 [M2 V2]]]]]].
  destruct (unpack_real c d 4 V ltac:(lia) ltac:(lia) Rd Nd) as [e3 [f3 [U3 [H3 [E3 [M3 V3]]]]]].
  change (2 ^ 4) with 16 in M3.
  destruct (emax_bound c V) as [B1 B2]. pose proof (E_room c V) as ER.
  pose proof (vc_F c V) as WF. pose proof (c_E_width c V) as WE.
  destruct (u_mul_exact (cF c) (c_E c) (gran c) (a <? 0) (b <? 0) e1 e2 f1 f2) as [e [f [UM [Be [Hf [M16 VM]]]]]];
    try assumption; try lia.
  set (n := xorb (a <? 0) (b <? 0)) in *.
  assert (PF : p_fma c a b d = bind (u_add (cF c) (c_E c) (U Regular n e f) (U Regular (d <? 0) e3 f3)) (pack_posit c)).
  { unfold p_fma. rewrite U1, U2. cbn [bind]. rewrite UM. cbn [bind]. rewrite U3. reflexivity. }
  assert (VP : (value c a * value c b == uval (cF c) n e f)%Q).
  { rewrite V1, V2. unfold uval, n. destruct (a <? 0), (b <? 0); cbn [xorb]; rewrite VM; ring. }
  assert (SP : scale (value c a * value c b) e).
  { eapply scale_comp; [symmetry; exact VP|]. apply uval_scale; [lia|assumption]. }
  assert (SD : scale (value c d) e3).
  { eapply scale_comp; [symmetry; exact V3|]. apply uval_scale; [lia|assumption]. }
  assert (Q : (value c a * value c b + value c d == uval (cF c) n e f + uval (cF c) (d <? 0) e3 f3)%Q)
    by (rewrite VP, V3; reflexivity).
  rewrite PF.
  destruct (Z_lt_le_dec (Z.abs (e - e3)) (Z.max 32 (cF c))) as [D|D].
  - destruct (sum_pack c n (d <? 0) e e3 f f3 V X AF Hf H3 M16 M3 ltac:(lia) ltac:(lia) ltac:(lia) ltac:(lia) D) as [A B].
    split; [|split].
    + intros r P. destruct (A r P) as [F1 F2]. split; [eapply faithful_comp; [symmetry; exact Q|exact F1]|].
      unfold sign_ok in *. rewrite Q. exact F2.
    + intros _ RU. apply B. destruct RU as [Z0|[k [S [R1 R2]]]]; [left; rewrite <- Q; assumption|].
      right. exists k. split; [|split; assumption]. eapply scale_comp; [exact Q|exact S].
    + intros NN. exfalso. apply NN. eapply near_by; eassumption.
  - rewrite sum_far by (assumption || lia). split; [intros r P; discriminate|]. split; [|auto].
    intros NR. pose proof (NR e e3 SP SD). lia.
Qed.

(** ** dot *)
Lemma dot_nil c : p_dot c [] = Ok 0.
Proof. reflexivity. Qed.
Lemma dot_one c x y : p_dot c [(x, y)] = p_mul c x y.
Proof.
  unfold p_dot, p_mul, dot_acc. destruct (unpack c x); cbn [bind]; [|reflexivity].
  destruct (unpack c y); cbn [bind]; [|reflexivity]. destruct (u_mul _ _ _ _); reflexivity.
Qed.

(** The unpacked product of two elements, and the left to right sum. *)
Definition uprod (c : cfg) (p : Z * Z) : res unpacked :=
  bind (unpack c (fst p)) (fun ux => bind (unpack c (snd p)) (fun uy => u_mul (cF c) (c_E c) ux uy)).
Definition usum (c : cfg) (u : unpacked) (us : list unpacked) : res unpacked :=
  fold_left (fun acc w => bind acc (fun s => u_add (cF c) (c_E c) s w)) us (Ok u).

Lemma uprod_Ok c x y : valid_cfg c -> frac_fits c -> real c x -> real c y -> exists u, uprod c (x, y) = Ok u.
Proof.
  intros V FF Rx Ry. vcb V. unfold uprod. cbn [fst snd].
  assert (K : forall v, real c v -> unpack c v = Ok (U Zero false 0 0) \/
    exists n e f, unpack c v = Ok (U Regular n e f) /\ 0 <= f < 2 ^ cF c /\ - emax c <= e <= emax c).
  { intros v Rv. destruct (Z.eq_dec v 0) as [->|Nv]; [left; apply unpack_zero; assumption|right].
    unfold frac_fits in FF. rewrite <- gran_val in FF.
    destruct (unpack_real c v 0 V ltac:(lia) ltac:(lia) Rv Nv) as [e1 [f1 [U1 [H1 [E1 _]]]]]. eauto 8. }
  destruct (emax_bound c V) as [B1 B2].
  destruct (K x Rx) as [->|[n [e [f [-> [Hf He]]]]]], (K y Ry) as [->|[n' [e' [f' [-> [Hf' He']]]]]]; cbn [bind];
    try (eexists; reflexivity).
  destruct (u_mul_spec (cF c) (c_E c) n n' e e' f f') as [e2 [f2 [j [-> _]]]]; try assumption; try lia;
    [apply vc_F; assumption|apply c_E_width; assumption|eauto].
Qed.

Lemma fold_ub c us k : fold_left (fun acc w => bind acc (fun s => u_add (cF c) (c_E c) s w)) us (UB k) = UB k.
Proof. induction us as [|u us IH]; [reflexivity|]. cbn [fold_left bind]. exact IH. Qed.

Lemma dot_acc_sum c l us s : Forall2 (fun p u => uprod c p = Ok u) l us -> dot_acc c s l = usum c s us.
Proof.
  intros H. revert s. induction H as [|p u l us P H IH]; intros s; [reflexivity|].
  destruct p as [x y]. unfold uprod in P. cbn [fst snd] in P. cbn [dot_acc].
  destruct (unpack c x) as [ux|]; cbn [bind] in *; [|discriminate].
  destruct (unpack c y) as [uy|]; cbn [bind] in *; [|discriminate].
  rewrite P. cbn [bind]. unfold usum. cbn [fold_left bind].
  destruct (u_add (cF c) (c_E c) s u) as [s'|k]; cbn [bind]; [apply IH|rewrite fold_ub; reflexivity].
Qed.

Lemma dot_sum c p l : valid_cfg c -> frac_fits c -> Forall (fun q => real c (fst q) /\ real c (snd q)) (p :: l) ->
  exists u us, uprod c p = Ok u /\ Forall2 (fun q w => uprod c q = Ok w) l us /\
    p_dot c (p :: l) = bind (usum c u us) (pack_posit c).
Proof.
  intros V FF H. inversion H as [|p' l' Hp Hl]; subst. destruct p as [x y]. cbn [fst snd] in Hp.
  destruct (uprod_Ok c x y V FF) as [u Pu]; try tauto. exists u.
  assert (A : exists us, Forall2 (fun q w => uprod c q = Ok w) l us).
  { clear - V FF Hl. induction Hl as [|q l Hq Hl IH]; [exists []; constructor|].
    destruct IH as [us IH]. destruct q as [x y]. destruct (uprod_Ok c x y V FF) as [u Pu]; try tauto. exists (u :: us). constructor; assumption. }
  destruct A as [us Hus]. exists us. split; [assumption|]. split; [assumption|].
  unfold p_dot. unfold uprod in Pu. cbn [fst snd] in Pu.
  destruct (unpack c x) as [ux|]; cbn [bind] in *; [|discriminate].
  destruct (unpack c y) as [uy|]; cbn [bind] in *; [|discriminate].
  rewrite Pu. cbn [bind]. rewrite (dot_acc_sum c l us u Hus). reflexivity.
Qed.

(** Terms with a zero factor do not matter. *)
Lemma dot_zero_term c x y l p : valid_cfg c -> frac_fits c -> real c x -> real c y -> x = 0 \/ y = 0 ->
  p_dot c (p :: (x, y) :: l) = p_dot c (p :: l).
Proof.
  intros V FF Rx Ry Z. vcb V. destruct p as [a b]. cbn [p_dot].
  destruct (unpack c a) as [ua|]; cbn [bind]; [|reflexivity]. destruct (unpack c b) as [ub|]; cbn [bind]; [|reflexivity].
  destruct (u_mul _ _ ua ub) as [m|]; cbn [bind]; [|reflexivity]. cbn [dot_acc].
  assert (U0 : uprod c (x, y) = Ok u_zero).
  { assert (K : forall v, real c v -> exists w, unpack c v = Ok w /\ (w = U Zero false 0 0 \/ exists n e f, w = U Regular n e f)).
    { intros v Rv. destruct (Z.eq_dec v 0) as [->|Nv].
      - rewrite unpack_zero by assumption. eauto.
      - unfold frac_fits in FF. rewrite <- gran_val in FF.
        destruct (unpack_real c v 0 V ltac:(lia) ltac:(lia) Rv Nv) as [e1 [f1 [U1 _]]]. eauto 8. }
    unfold uprod. cbn [fst snd]. destruct Z as [-> | ->]; rewrite unpack_zero by assumption.
    - destruct (K y Ry) as [w [-> [->|[n [e [f ->]]]]]]; reflexivity.
    - destruct (K x Rx) as [w [-> [->|[n [e [f ->]]]]]]; reflexivity. }
  unfold uprod in U0. cbn [fst snd] in U0.
  destruct (unpack c x) as [ux|]; cbn [bind] in *; [|discriminate].
  destruct (unpack c y) as [uy|]; cbn [bind] in *; [|discriminate].
  rewrite U0. cbn [bind].
  assert (A : u_add (cF c) (c_E c) m u_zero = Ok m) by (unfold u_add; destruct m as [t n e f]; destruct t; reflexivity).
  rewrite A. reflexivity.
Qed.
Lemma dot_two c a b d : valid_cfg c -> mul_fits c -> real c a -> real c b -> real c d -> d <> 0 ->
  p_dot c [(a, b); (d, p_one c)] = p_fma c a b d.
Proof.
  intros V MF Ra Rb Rd Nd. vcb V. unfold p_fma. cbn [p_dot dot_acc].
  destruct (unpack c a) as [ua|]; cbn [bind]; [|reflexivity]. destruct (unpack c b) as [ub|]; cbn [bind]; [|reflexivity].
  destruct (u_mul _ _ ua ub) as [m|]; cbn [bind]; [|reflexivity].
  rewrite unpack_one by assumption. unfold mul_fits in MF. rewrite <- gran_val in MF.
  destruct (unpack_real c d 2 V ltac:(lia) MF Rd Nd) as [e [f [U1 [Hf [He [M Vv]]]]]].
  destruct (emax_bound c V) as [B1 B2]. rewrite U1. cbn [bind].
  rewrite u_mul_one; try assumption; try lia; try (apply vc_F; assumption); try (apply c_E_width; assumption).
  cbn [bind]. destruct (u_add _ _ _ _); reflexivity.
Qed.

Lemma fma_degenerate c a b d :
  valid_cfg c -> exp_ok c -> mul_fits c -> real c a -> real c b -> real c d ->
  p_fma c a b 0 = p_mul c a b /\
  (a <> 0 -> d <> 0 -> p_fma c a (p_one c) d = p_add c a d /\ p_fma c (p_one c) a d = p_add c a d) /\
  (roomy c -> p_fma c a (p_one c) d = p_add c a d /\ p_fma c (p_one c) a d = p_add c a d).
Proof.
  intros V X MF Ra Rb Rd. split; [apply fma_zero; assumption|]. split; [intros; apply fma_one; assumption|].
  intros; apply fma_one_all; assumption.
Qed.
Lemma dot_small c x y a b d :
  valid_cfg c -> mul_fits c -> real c a -> real c b -> real c d -> d <> 0 ->
  p_dot c [] = Ok 0 /\ p_dot c [(x, y)] = p_mul c x y /\ p_dot c [(a, b); (d, p_one c)] = p_fma c a b d.
Proof. intros. split; [reflexivity|]. split; [apply dot_one|apply dot_two; assumption]. Qed.
