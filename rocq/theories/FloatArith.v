(** Arithmetic on unpacked numbers that were read from floats. *)
From Coq Require Import ZArith QArith Qabs Lia Lqa Bool List.
From Verif Require Import Res CInt Bits Traits Unpacked Cfg Spec QPow Core Arith UOps UAdd Ops OpsAdd Final1 Conv1 Misc2 UAdd2.
Open Scope Z_scope.

(** A cell whose number is itself an unpacked number with [j] clear bits starts there. *)
Lemma cell_exact F e f j e' f' : 0 < F -> cell F e f j (uabs F e' f') -> 0 <= f' < 2 ^ F -> f' mod 2 ^ j = 0 -> j <= F -> e = e' /\ f = f'.
Proof.
  intros HF (B & J & M & L & H) B' M' JF.
  destruct (uabs_scale F e f ltac:(lia) B) as [S1 S2]. destruct (uabs_scale F e' f' ltac:(lia) B') as [S1' S2'].
  pow_pos 2 j. pow_pos 2 F.
  assert (TOP : (dy (2 ^ F + f + 2 ^ j) (e - F) <= pow2 (e + 1))%Q).
  { assert (P : 2 ^ F = 2 ^ (F - j) * 2 ^ j) by (rewrite <- Z.pow_add_r by lia; f_equal; lia).
    assert (D : f = f / 2 ^ j * 2 ^ j) by (pose proof (Z.div_mod f (2 ^ j)); lia).
    assert (f / 2 ^ j < 2 ^ (F - j)) by (apply Z.div_lt_upper_bound; lia).
    assert (f + 2 ^ j <= 2 ^ F) by nia.
    assert (Q0 : (pow2 (e + 1) == dy (2 ^ (F + 1)) (e - F))%Q).
    { unfold dy. rewrite <- pow2_Z by lia. rewrite <- pow2_plus. replace (F + 1 + (e - F)) with (e + 1) by lia. reflexivity. }
    rewrite Q0. apply dy_le. rewrite pow2_S by lia. lia. }
  assert (E1 : e < e' + 1) by (apply pow2_lt_inv; lra).
  assert (E2 : e' < e + 1) by (apply pow2_lt_inv; lra).
  assert (EE : e = e') by lia. split; [assumption|]. subst e'. unfold uabs in L, H. apply dy_le_inv in L. apply dy_lt_inv in H.
  pose proof (Z.div_mod f (2 ^ j) ltac:(lia)) as D1. pose proof (Z.div_mod f' (2 ^ j) ltac:(lia)) as D2. rewrite M in D1. rewrite M' in D2.
  assert (f / 2 ^ j = f' / 2 ^ j) by nia. nia.
Qed.

Lemma even_cut f : f mod 2 = 0 -> 2 * (f / 2) = f.
Proof. intros. pose proof (Z.div_mod f 2). lia. Qed.
Lemma mod_lower f j k : 0 <= j <= k -> f mod 2 ^ k = 0 -> f mod 2 ^ j = 0.
Proof.
  intros J M. pow_pos 2 k. pow_pos 2 j. apply Z.mod_divide; [lia|]. apply Z.mod_divide in M; [|lia]. destruct M as [q M]. exists (q * 2 ^ (k - j)).
  rewrite M, <- Z.mul_assoc, <- Z.pow_add_r by lia. do 2 f_equal. lia.
Qed.

(** A product or quotient that is an unpacked number is found. *)
Lemma mul_exact F E na nb ea eb fa fb n e f : is_width F -> is_width E -> 0 <= fa < 2 ^ F -> 0 <= fb < 2 ^ F -> 0 <= f < 2 ^ F ->
  - 2 ^ (E - 1) <= ea + eb -> ea + eb + 1 < 2 ^ (E - 1) -> fa mod 2 = 0 -> fb mod 2 = 0 -> f mod 4 = 0 ->
  (uvalue F na ea fa * uvalue F nb eb fb == uvalue F n e f)%Q ->
  u_mul F E (U Regular na ea fa) (U Regular nb eb fb) = Ok (U Regular n e f).
Proof.
  intros WF WE Ba Bb Bf E1 E2 Ma Mb M Q0. pose proof (is_width_pos F WF).
  destruct (u_mul_spec F E na nb ea eb fa fb WF WE Ba Bb E1 E2) as (e' & f' & j & R & J & _ & C).
  rewrite !even_cut in C by assumption. fold (uabs F ea fa) in C. fold (uabs F eb fb) in C.
  pose proof (uabs_pos F ea fa ltac:(lia) ltac:(lia)) as Pa. pose proof (uabs_pos F eb fb ltac:(lia) ltac:(lia)) as Pb. pose proof (uabs_pos F e f ltac:(lia) ltac:(lia)) as Pf.
  assert (Pab : (0 < uabs F ea fa * uabs F eb fb)%Q) by (apply Qmult_lt_0_compat; assumption).
  rewrite !uvalue_uval in Q0 by lia. unfold uval in Q0.
  assert (S : (uabs F ea fa * uabs F eb fb == uabs F e f)%Q /\ n = xorb na nb) by (destruct na, nb, n; cbn [xorb]; split; try reflexivity; exfalso + idtac; lra).
  destruct S as [S ->]. destruct C as (C1 & C2 & C3 & C4 & C5).
  destruct (cell_exact F e' f' j e f) as [-> ->]; [lia| |assumption| |lia|exact R].
  - repeat split; try assumption; try lia; rewrite <- S; assumption.
  - apply (mod_lower f j 2); [lia|exact M].
Qed.

Lemma div_exact F E na nb ea eb fa fb n e f : is_width F -> is_width E -> 0 <= fa < 2 ^ F -> 0 <= fb < 2 ^ F -> 0 <= f < 2 ^ F ->
  - 2 ^ (E - 1) <= ea - eb - 1 -> ea - eb < 2 ^ (E - 1) -> fa mod 2 = 0 -> fb mod 4 = 0 ->
  (uvalue F na ea fa == uvalue F n e f * uvalue F nb eb fb)%Q ->
  u_div F E (U Regular na ea fa) (U Regular nb eb fb) = Ok (U Regular n e f).
Proof.
  intros WF WE Ba Bb Bf E1 E2 Ma Mb Q0. pose proof (is_width_pos F WF).
  destruct (u_div_spec F E na nb ea eb fa fb WF WE Ba Bb Mb E1 E2) as (e' & f' & R & _ & C).
  rewrite even_cut in C by assumption. fold (uabs F ea fa) in C.
  pose proof (uabs_pos F ea fa ltac:(lia) ltac:(lia)) as Pa. pose proof (uabs_pos F eb fb ltac:(lia) ltac:(lia)) as Pb. pose proof (uabs_pos F e f ltac:(lia) ltac:(lia)) as Pf.
  assert (Pab : (0 < uabs F e f * uabs F eb fb)%Q) by (apply Qmult_lt_0_compat; assumption).
  rewrite !uvalue_uval in Q0 by lia. unfold uval in Q0.
  assert (S : (uabs F ea fa == uabs F e f * uabs F eb fb)%Q /\ n = xorb na nb) by (destruct na, nb, n; cbn [xorb]; split; try reflexivity; exfalso + idtac; lra).
  destruct S as [S ->]. assert (S' : (uabs F ea fa / uabs F eb fb == uabs F e f)%Q) by (rewrite S; field; lra).
  destruct C as (C1 & C2 & C3 & C4 & C5).
  destruct (cell_exact F e' f' 0 e f) as [-> ->]; [lia| |assumption|apply Z.mod_1_r|lia|exact R].
  repeat split; try assumption; try lia; rewrite <- S'; assumption.
Qed.

(** A sum of multiples of a common unit is found. *)
Lemma add_found F E na nb ea eb fa fb m i j :
  is_width F -> is_width E -> 0 <= fa < 2 ^ F -> 0 <= fb < 2 ^ F ->
  - 2 ^ (E - 1) <= ea - eb < 2 ^ (E - 1) -> - 2 ^ (E - 1) <= eb - ea < 2 ^ (E - 1) ->
  Z.max ea eb + 1 < 2 ^ (E - 1) -> - 2 ^ (E - 1) <= Z.max ea eb + 2 - F ->
  let x := uvalue F na ea fa in let y := uvalue F nb eb fb in
  (Qabs x < pow2 (m + 1))%Q -> (Qabs y < pow2 (m + 1))%Q ->
  (x == inject_Z i * pow2 (m + 3 - F))%Q -> (y == inject_Z j * pow2 (m + 3 - F))%Q ->
  ((x + y == 0)%Q -> u_add F E (U Regular na ea fa) (U Regular nb eb fb) = Ok (u_special Zero false)) /\
  (forall n e f, 0 <= f < 2 ^ F -> (uvalue F n e f == x + y)%Q -> u_add F E (U Regular na ea fa) (U Regular nb eb fb) = Ok (U Regular n e f)).
Proof.
  intros WF WE Ba Bb R1 R2 R3 R4 x y Lx Ly Mx My. pose proof (is_width_pos F WF) as WP.
  unfold x in Lx. unfold y in Ly. rewrite uvalue_abs in Lx, Ly by lia.
  destruct (uabs_scale F ea fa ltac:(lia) Ba) as [Sa Sa']. destruct (uabs_scale F eb fb ltac:(lia) Bb) as [Sb Sb'].
  assert (Ea : ea < m + 1) by (apply pow2_lt_inv; lra). assert (Eb : eb < m + 1) by (apply pow2_lt_inv; lra).
  set (M := Z.max ea eb) in *. set (k := m - M). assert (Hk : 0 <= k) by (unfold k, M; lia).
  assert (UN : (pow2 (m + 3 - F) == inject_Z (2 ^ (k + 1)) * pow2 (M + 2 - F))%Q).
  { rewrite <- pow2_Z by lia. rewrite <- pow2_plus. replace (k + 1 + (M + 2 - F)) with (m + 3 - F) by (unfold k; lia). reflexivity. }
  assert (Pu := pow2_pos (m + 3 - F)).
  assert (big : forall z e f q, 0 <= f < 2 ^ F -> (uvalue F z e f == inject_Z q * pow2 (m + 3 - F))%Q -> m + 3 - F < e + 1).
  { intros z e f q Bf Q0. destruct (uabs_scale F e f ltac:(lia) Bf) as [_ S]. pose proof (uvalue_abs F z e f ltac:(lia) Bf) as A.
    rewrite Q0, Qabs_Qmult, (Qabs_pos (pow2 _)) in A by lra. pose proof (uabs_pos F e f ltac:(lia) ltac:(lia)) as P0.
    assert (NZ : q <> 0) by (intros ->; change (Qabs (inject_Z 0)) with 0%Q in A; lra).
    assert (1 <= Qabs (inject_Z q))%Q by (change (Qabs (inject_Z q)) with (inject_Z (Z.abs q)); change 1%Q with (inject_Z 1); rewrite <- Zle_Qle; lia).
    apply pow2_lt_inv. nra. }
  pose proof (big _ _ _ _ Ba Mx) as Ga. pose proof (big _ _ _ _ Bb My) as Gb.
  assert (AB : Z.abs (ea - eb) < Z.max 32 F) by (clear - Ea Eb Ga Gb; lia).
  pose proof (add_exact F E na nb ea eb fa fb WF WE Ba Bb R1 R2 R3 R4 AB (i * 2 ^ (k + 1)) (j * 2 ^ (k + 1))) as X. cbv zeta in X. fold x y M in X.
  assert (X' := X ltac:(rewrite Mx, UN, inject_Z_mult; ring) ltac:(rewrite My, UN, inject_Z_mult; ring)). clear X.
  assert (SUM : (x + y == inject_Z (2 * ((i + j) * 2 ^ k)) * pow2 (M + 2 - F))%Q).
  { rewrite Mx, My, UN. replace (2 * ((i + j) * 2 ^ k)) with ((i + j) * 2 ^ (k + 1)) by (rewrite pow2_S by lia; ring). rewrite inject_Z_mult, inject_Z_plus. ring. }
  assert (Pm := pow2_pos (M + 2 - F)).
  destruct X' as [[R Z0]|[(n & e & f & R & Bf & Q0)|(_ & _ & U)]].
  - split; [intros _; exact R|]. intros n e f Bf Q0. rewrite Z0 in Q0. exfalso.
    pose proof (uvalue_abs F n e f ltac:(lia) Bf) as A. rewrite Q0 in A. change (Qabs 0) with 0%Q in A. pose proof (uabs_pos F e f ltac:(lia) ltac:(lia)). lra.
  - split.
    + intros Z0. rewrite Z0 in Q0. exfalso. pose proof (uvalue_abs F n e f ltac:(lia) Bf) as A. rewrite Q0 in A. change (Qabs 0) with 0%Q in A. pose proof (uabs_pos F e f ltac:(lia) ltac:(lia)). lra.
    + intros n' e' f' Bf' Q0'. rewrite <- Q0 in Q0'. apply uvalue_inj in Q0'; [|lia|assumption|assumption]. destruct Q0' as (-> & -> & ->). exact R.
  - exfalso. rewrite SUM, Qabs_Qmult, (Qabs_pos (pow2 (M + 2 - F))) in U by (apply Qlt_le_weak; exact Pm). change (Qabs (inject_Z ?z)) with (inject_Z (Z.abs z)) in U.
    set (t := Z.abs (2 * ((i + j) * 2 ^ k))) in *.
    assert (T : (inject_Z t == 1)%Q) by (apply (Qmult_inj_r _ _ (pow2 (M + 2 - F))); [lra|]; rewrite U; ring).
    change 1%Q with (inject_Z 1) in T. apply (proj1 (inject_Z_injective t 1)) in T. unfold t in T. revert T. assert (OD : forall w, Z.abs (2 * w) <> 1) by (clear; intros; lia). exact (OD _).
Qed.

Section floats.
Variables eb fb F E : Z.
Hypothesis FO : fmt_ok eb fb.
Hypothesis WF : is_width F.
Hypothesis WE : is_width E.
Hypothesis E16 : 16 <= E.
Hypothesis FF : fb <= F.
Notation read := (u_unpack_xfloati F E (any_floattrait eb fb true)).

(** Reading a nonzero float: exact, with the low bits of the fraction clear and the exponent in range. *)
Lemma read_ok b q : 0 <= b < 2 ^ (eb + fb + 1) -> ieee_val eb fb b = FinVal q -> ~ (q == 0)%Q ->
  exists n e f, read b = Ok (U Regular n e f) /\ 0 <= f < 2 ^ F /\ f mod 2 ^ (F - fb) = 0 /\ -2100 <= e <= 2100 /\ (uvalue F n e f == q)%Q.
Proof using FO WF WE E16 FF.
  intros B V NZ. assert (EE : eb < E) by (destruct FO as [_ [E1 E2] _]; lia). destruct FO as [W [E1 E2] Hf].
  pose proof (is_width_pos F WF) as WP.
  pose proof (unpack_wide eb fb F E true FO WF WE EE b FF B) as UW. rewrite V in UW. cbv zeta in UW.
  destruct UW as [[[Z0|[D _]] _]|[_ [_ (n & e & f & R & Bf & Q0)]]]; [contradiction|discriminate|].
  exists n, e, f. split; [exact R|]. split; [exact Bf|].
  destruct (unpack_float eb fb F E true FO WF WE EE b B) as [Bd UF]. rewrite R in UF.
  pose proof (dec_wide eb fb F FO b FF) as DW. destruct (ieee_cases eb fb FO b B) as (Bff & Be & _).
  pow_pos 2 (F - fb). pow_pos 2 F. pow_pos 2 fb.
  assert (BI : 2 ^ (eb - 1) - 1 <= 1023 /\ 2 ^ eb <= 2048).
  { assert (2 ^ (eb - 1) <= 2 ^ 10) by (apply pow2_mono; lia). assert (2 ^ eb <= 2 ^ 11) by (apply pow2_mono; lia). change (2 ^ 10) with 1024 in *. change (2 ^ 11) with 2048 in *. lia. }
  assert (BI0 : 0 < 2 ^ (eb - 1)) by (apply Z.pow_pos_nonneg; lia).
  set (d := dec_frac fb F b) in *. set (bias := 2 ^ (eb - 1) - 1) in *.
  assert (Dm : d mod 2 ^ (F - fb) = 0) by (rewrite DW; apply Z.mod_mul; lia).
  assert (FW : fb <= 61).
  { destruct W as [W|[W|[W|W]]]; lia. }
  destruct (fexp_of eb fb b =? 2 ^ eb - 1); [destruct (d =? 0); discriminate|].
  destruct (fexp_of eb fb b =? 0).
  - cbn [negb orb] in UF. destruct (Z.eqb_spec d 0) as [D0|D0]; [discriminate|]. cbv zeta in UF.
    destruct (F - Z.log2 d <? pw F); [|discriminate]. injection UF as _ -> ->.
    assert (L0 : Z.log2 d < F) by (apply Z.log2_lt_pow2; lia). pose proof (Z.log2_nonneg d).
    split; [|split; [lia|exact Q0]].
    assert (PF : 2 ^ F = 2 ^ fb * 2 ^ (F - fb)) by (rewrite <- Z.pow_add_r by lia; f_equal; lia).
    apply Z.mod_divide in Dm; [|lia]. destruct Dm as [t Dm].
    rewrite PF, Dm. rewrite <- Z.mul_assoc, (Z.mul_comm (2 ^ (F - fb)) (2 ^ _)), Z.mul_assoc, Z.mul_mod_distr_r by lia. apply Z.mod_mul. lia.
  - injection UF as _ -> ->. split; [exact Dm|]. split; [lia|exact Q0].
Qed.

Lemma E_room z : Z.abs z <= 5000 -> - 2 ^ (E - 1) <= z < 2 ^ (E - 1).
Proof using E16. intros. assert (2 ^ 15 <= 2 ^ (E - 1)) by (apply pow2_mono; lia). change (2 ^ 15) with 32768 in *. lia. Qed.

Section ops.
Variables bx by_ : Z.
Variables qx qy : Q.
Hypothesis Bx : 0 <= bx < 2 ^ (eb + fb + 1).
Hypothesis By : 0 <= by_ < 2 ^ (eb + fb + 1).
Hypothesis Vx : ieee_val eb fb bx = FinVal qx.
Hypothesis Vy : ieee_val eb fb by_ = FinVal qy.
Hypothesis Nx : ~ (qx == 0)%Q.
Hypothesis Ny : ~ (qy == 0)%Q.

Lemma fl_mul bz qz : fb + 2 <= F -> 0 <= bz < 2 ^ (eb + fb + 1) -> ieee_val eb fb bz = FinVal qz -> (qz == qx * qy)%Q ->
  exists x y z, read bx = Ok x /\ read by_ = Ok y /\ read bz = Ok z /\ u_mul F E x y = Ok z.
Proof using All.
  intros F2 Bz Vz Q0. assert (Nz : ~ (qz == 0)%Q) by (intros Z0; rewrite Z0 in Q0; symmetry in Q0; apply Qmult_integral in Q0; tauto).
  destruct (read_ok bx qx Bx Vx Nx) as (n1 & e1 & f1 & R1 & B1 & M1 & X1 & Q1). destruct (read_ok by_ qy By Vy Ny) as (n2 & e2 & f2 & R2 & B2 & M2 & X2 & Q2).
  destruct (read_ok bz qz Bz Vz Nz) as (n3 & e3 & f3 & R3 & B3 & M3 & X3 & Q3).
  eexists _, _, _. split; [exact R1|]. split; [exact R2|]. split; [exact R3|].
  destruct (E_room (e1 + e2) ltac:(lia)) as [K1 _]. destruct (E_room (e1 + e2 + 1) ltac:(lia)) as [_ K2].
  assert (P1 : f1 mod 2 ^ 1 = 0) by (apply (mod_lower f1 1 (F - fb)); [lia|assumption]). assert (P2 : f2 mod 2 ^ 1 = 0) by (apply (mod_lower f2 1 (F - fb)); [lia|assumption]).
  assert (P3 : f3 mod 2 ^ 2 = 0) by (apply (mod_lower f3 2 (F - fb)); [lia|assumption]).
  apply mul_exact; try assumption. rewrite Q1, Q2, Q3, Q0. reflexivity.
Qed.

Lemma fl_div bz qz : fb + 2 <= F -> 0 <= bz < 2 ^ (eb + fb + 1) -> ieee_val eb fb bz = FinVal qz -> (qz == qx / qy)%Q ->
  exists x y z, read bx = Ok x /\ read by_ = Ok y /\ read bz = Ok z /\ u_div F E x y = Ok z.
Proof using All.
  intros F2 Bz Vz Q0. assert (Q1' : (qx == qz * qy)%Q) by (rewrite Q0; field; assumption).
  assert (Nz : ~ (qz == 0)%Q) by (intros Z0; rewrite Z0, Qmult_0_l in Q1'; contradiction).
  destruct (read_ok bx qx Bx Vx Nx) as (n1 & e1 & f1 & R1 & B1 & M1 & X1 & Q1). destruct (read_ok by_ qy By Vy Ny) as (n2 & e2 & f2 & R2 & B2 & M2 & X2 & Q2).
  destruct (read_ok bz qz Bz Vz Nz) as (n3 & e3 & f3 & R3 & B3 & M3 & X3 & Q3).
  eexists _, _, _. split; [exact R1|]. split; [exact R2|]. split; [exact R3|].
  destruct (E_room (e1 - e2 - 1) ltac:(lia)) as [K1 _]. destruct (E_room (e1 - e2) ltac:(lia)) as [_ K2].
  assert (P1 : f1 mod 2 ^ 1 = 0) by (apply (mod_lower f1 1 (F - fb)); [lia|assumption]). assert (P2 : f2 mod 2 ^ 2 = 0) by (apply (mod_lower f2 2 (F - fb)); [lia|assumption]).
  apply div_exact; try assumption. rewrite Q1, Q2, Q3. exact Q1'.
Qed.

Lemma fl_addsub (neg : bool) m i j : (Qabs qx < pow2 (m + 1))%Q -> (Qabs qy < pow2 (m + 1))%Q ->
  (qx == inject_Z i * pow2 (m + 3 - F))%Q -> (qy == inject_Z j * pow2 (m + 3 - F))%Q ->
  let op := if neg then u_sub F E else u_add F E in
  let s := (if neg then qx - qy else qx + qy)%Q in
  exists x y, read bx = Ok x /\ read by_ = Ok y /\
    ((s == 0)%Q -> op x y = Ok (u_special Zero false)) /\
    (forall bz qz, 0 <= bz < 2 ^ (eb + fb + 1) -> ieee_val eb fb bz = FinVal qz -> (qz == s)%Q -> ~ (s == 0)%Q -> read bz = op x y).
Proof using All.
  intros Lx Ly Mx My op s.
  destruct (read_ok bx qx Bx Vx Nx) as (n1 & e1 & f1 & R1 & B1 & M1 & X1 & Q1). destruct (read_ok by_ qy By Vy Ny) as (n2 & e2 & f2 & R2 & B2 & M2 & X2 & Q2).
  eexists _, _. split; [exact R1|]. split; [exact R2|]. pose proof (is_width_pos F WF) as WP.
  set (n2' := if neg then negb n2 else n2). set (j' := if neg then - j else j).
  assert (Y : (uvalue F n2' e2 f2 == if neg then - qy else qy)%Q).
  { unfold n2'. destruct neg; [|exact Q2]. rewrite <- Q2. unfold uvalue. destruct n2; cbn [negb]; ring. }
  assert (OP : op (U Regular n1 e1 f1) (U Regular n2 e2 f2) = u_add F E (U Regular n1 e1 f1) (U Regular n2' e2 f2)).
  { unfold op, n2'. destruct neg; [|reflexivity]. unfold u_sub. f_equal. unfold u_neg, u_mk. cbn [uexp ufrac uneg].
    pose proof (is_width_pos E WE). destruct (E_room e2 ltac:(lia)). rewrite cast_s_small, cast_u_small by lia. reflexivity. }
  rewrite OP.
  assert (YJ : (uvalue F n2' e2 f2 == inject_Z j' * pow2 (m + 3 - F))%Q).
  { rewrite Y. unfold j'. destruct neg; [|exact My]. rewrite My, inject_Z_opp. ring. }
  assert (YL : (Qabs (uvalue F n2' e2 f2) < pow2 (m + 1))%Q) by (rewrite Y; destruct neg; [rewrite Qabs_opp|]; exact Ly).
  destruct (E_room (e1 - e2) ltac:(lia)) as [K1 K2]. destruct (E_room (e2 - e1) ltac:(lia)) as [K3 K4].
  destruct (E_room (Z.max e1 e2 + 1) ltac:(lia)) as [_ K5]. destruct (E_room (Z.max e1 e2 + 2 - F) ltac:(lia)) as [K6 _].
  pose proof (add_found F E n1 n2' e1 e2 f1 f2 m i j' WF WE B1 B2 (conj K1 K2) (conj K3 K4) K5 K6) as A. cbv zeta in A.
  assert (S : (uvalue F n1 e1 f1 + uvalue F n2' e2 f2 == s)%Q) by (unfold s; rewrite Q1, Y; destruct neg; ring).
  destruct A as [A1 A2]; [rewrite Q1; exact Lx|exact YL|rewrite Q1; exact Mx|exact YJ|]. split.
  - intros Z0. apply A1. rewrite S. exact Z0.
  - intros bz qz Bz Vz Q0 NZ. assert (Nz : ~ (qz == 0)%Q) by (rewrite Q0; exact NZ).
    destruct (read_ok bz qz Bz Vz Nz) as (n3 & e3 & f3 & R3 & B3 & M3 & X3 & Q3). rewrite R3. symmetry. apply A2; [exact B3|]. rewrite S, Q3. exact Q0.
Qed.

End ops.

(** Floats and their negatives. *)
Definition isfl (q : Q) : Prop := exists b v, 0 <= b < 2 ^ (eb + fb + 1) /\ ieee_val eb fb b = FinVal v /\ ((q == v)%Q \/ (q == - v)%Q).
Lemma isfl_neg q : isfl q -> isfl (- q).
Proof using. intros (b & v & B & V & S). exists b, v. split; [assumption|]. split; [assumption|]. destruct S as [S|S]; [right|left]; rewrite S; ring. Qed.

(** Every nonzero float is a multiple of 2^(e-fb), e being its exponent. *)
Lemma fl_mult q : isfl q -> ~ (q == 0)%Q ->
  exists e t, (pow2 e <= Qabs q)%Q /\ (Qabs q < pow2 (e + 1))%Q /\ forall k, k <= e - fb -> (q == inject_Z (t * 2 ^ (e - fb - k)) * pow2 k)%Q.
Proof using FO WF WE E16 FF.
  intros (b & v & B & V & SG) NZ'. assert (NZ : ~ (v == 0)%Q) by (intros Z0; rewrite Z0 in SG; destruct SG as [SG|SG]; apply NZ'; rewrite SG; reflexivity).
  destruct (read_ok b v B V NZ) as (n & e & f & _ & Bf & M & _ & Q0). pose proof (is_width_pos F WF) as WP. destruct FO as [_ _ Hf].
  destruct (uabs_scale F e f ltac:(lia) Bf) as [S1 S2]. pose proof (uvalue_abs F n e f ltac:(lia) Bf) as A. rewrite Q0 in A.
  assert (A' : (Qabs q == uabs F e f)%Q) by (rewrite <- A; destruct SG as [SG|SG]; rewrite SG; [reflexivity|apply Qabs_opp]).
  pow_pos 2 (F - fb). apply Z.mod_divide in M; [|lia]. destruct M as [g M].
  assert (D : forall k, k <= e - fb -> (dy (2 ^ F + f) (e - F) == dy ((2 ^ fb + g) * 2 ^ (e - fb - k)) k)%Q).
  { intros k K. replace (2 ^ F + f) with ((2 ^ fb + g) * 2 ^ (F - fb)).
    2:{ rewrite M, Z.mul_add_distr_r, <- Z.pow_add_r by lia. do 2 f_equal. lia. }
    rewrite !dy_pow by lia. replace (e - F + (F - fb)) with (k + (e - fb - k)) by lia. reflexivity. }
  assert (T : (q == dy (2 ^ F + f) (e - F))%Q \/ (q == - dy (2 ^ F + f) (e - F))%Q).
  { rewrite uvalue_dy in Q0 by lia. unfold sgn1 in Q0. destruct n, SG as [SG|SG]; [right|left|left|right]; rewrite SG, <- Q0; ring. }
  destruct T as [T|T].
  - exists e, (2 ^ fb + g). rewrite A'. split; [exact S1|]. split; [exact S2|]. intros k K. rewrite T, (D k K). reflexivity.
  - exists e, (- (2 ^ fb + g)). rewrite A'. split; [exact S1|]. split; [exact S2|]. intros k K. rewrite T, (D k K). unfold dy. rewrite Z.mul_opp_l, inject_Z_opp. ring.
Qed.
Lemma inject_minus a b : (inject_Z (a - b) == inject_Z a - inject_Z b)%Q.
Proof using. unfold Z.sub, Qminus. rewrite inject_Z_plus, inject_Z_opp. reflexivity. Qed.

(** A sum of floats that is a float is a sum of multiples of a unit that is large enough. *)
Lemma fl_unit qx qy : isfl qx -> isfl qy -> isfl (qx + qy) -> ~ (qx == 0)%Q -> ~ (qy == 0)%Q ->
  exists m i j, (Qabs qx < pow2 (m + 1))%Q /\ (Qabs qy < pow2 (m + 1))%Q /\ (qx == inject_Z i * pow2 (m - 1 - fb))%Q /\ (qy == inject_Z j * pow2 (m - 1 - fb))%Q.
Proof using FO WF WE E16 FF.
  assert (G : forall qx qy, isfl qx -> isfl qy -> isfl (qx + qy) -> ~ (qx == 0)%Q -> ~ (qy == 0)%Q -> (Qabs qy <= Qabs qx)%Q ->
    exists m i j, (Qabs qx < pow2 (m + 1))%Q /\ (Qabs qy < pow2 (m + 1))%Q /\ (qx == inject_Z i * pow2 (m - 1 - fb))%Q /\ (qy == inject_Z j * pow2 (m - 1 - fb))%Q).
  { clear qx qy. intros qx qy Fx Fy Fz Nx Ny L.
    destruct (fl_mult qx Fx Nx) as (ex & tx & X1 & X2 & X3). destruct (fl_mult qy Fy Ny) as (ey & ty & Y1 & Y2 & Y3).
    exists ex. exists (tx * 2 ^ (ex - fb - (ex - 1 - fb))).
    destruct (Z_le_gt_dec (ex - 1) ey) as [C|C].
    - exists (ty * 2 ^ (ey - fb - (ex - 1 - fb))). split; [exact X2|]. split; [lra|]. split; [apply X3; lia|apply Y3; lia].
    - assert (P2 : (pow2 (ey + 1) <= pow2 (ex - 1))%Q) by (apply pow2_le; lia).
      assert (P3 : (pow2 ex == 2 * pow2 (ex - 1))%Q) by (replace ex with (1 + (ex - 1)) at 1 by lia; rewrite pow2_plus; reflexivity).
      set (qz := (qx + qy)%Q) in *.
      assert (LZ : (pow2 (ex - 1) <= Qabs qz)%Q).
      { assert (T : (Qabs qx <= Qabs qz + Qabs qy)%Q).
        { assert (E1 : (qx == qz + - qy)%Q) by (unfold qz; ring). rewrite E1 at 1. rewrite <- (Qabs_opp qy). apply Qabs_triangle. }
        lra. }
      pose proof (pow2_pos (ex - 1)).
      assert (Nz : ~ (qz == 0)%Q) by (intros Z0; rewrite Z0 in LZ; change (Qabs 0) with 0%Q in LZ; lra).
      destruct (fl_mult qz Fz Nz) as (ez & tz & Z1 & Z2 & Z3).
      assert (EZ : ex - 1 < ez + 1) by (apply pow2_lt_inv; lra).
      exists (tz * 2 ^ (ez - fb - (ex - 1 - fb)) - tx * 2 ^ (ex - fb - (ex - 1 - fb))).
      split; [exact X2|]. split; [lra|]. split; [apply X3; lia|].
      pose proof (X3 (ex - 1 - fb) ltac:(lia)) as X3'. pose proof (Z3 (ex - 1 - fb) ltac:(lia)) as Z3'.
      rewrite inject_minus. assert (E1 : (qy == qz - qx)%Q) by (unfold qz; ring). rewrite E1.
      set (a := inject_Z (tz * _)) in *. set (b := inject_Z (tx * _)) in *. rewrite X3' at 1. rewrite Z3'. ring. }
  intros Fx Fy Fz Nx Ny. destruct (Qlt_le_dec (Qabs qx) (Qabs qy)) as [C|C].
  - assert (Fz' : isfl (qy + qx)) by (destruct Fz as (b & v & B & V & S); exists b, v; split; [assumption|]; split; [assumption|]; rewrite (Qplus_comm qy qx); exact S).
    destruct (G qy qx Fy Fx Fz' Ny Nx ltac:(lra)) as (m & i & j & A1 & A2 & A3 & A4). exists m, j, i. tauto.
  - exact (G qx qy Fx Fy Fz Nx Ny C).
Qed.

Lemma fl_add bx by_ bz qx qy qz (neg : bool) : fb + 4 <= F ->
  0 <= bx < 2 ^ (eb + fb + 1) -> 0 <= by_ < 2 ^ (eb + fb + 1) -> 0 <= bz < 2 ^ (eb + fb + 1) ->
  ieee_val eb fb bx = FinVal qx -> ieee_val eb fb by_ = FinVal qy -> ieee_val eb fb bz = FinVal qz ->
  ~ (qx == 0)%Q -> ~ (qy == 0)%Q ->
  (qz == if neg then qx - qy else qx + qy)%Q ->
  let op := if neg then u_sub F E else u_add F E in
  exists x y z r, read bx = Ok x /\ read by_ = Ok y /\ read bz = Ok z /\ op x y = Ok r /\ (utyp r = utyp z /\ uneg r = uneg z) /\ (utyp z <> Zero -> r = z).
Proof using FO WF WE E16 FF.
  intros F4 Bx By Bz Vx Vy Vz Nx Ny Q0 op. destruct FO as [_ [E1 E2] Hf].
  assert (Fx : isfl qx) by (exists bx, qx; repeat split; try assumption; try lia; left; reflexivity).
  assert (Fy : isfl qy) by (exists by_, qy; repeat split; try assumption; try lia; left; reflexivity).
  assert (Fz : isfl qz) by (exists bz, qz; repeat split; try assumption; try lia; left; reflexivity).
  assert (U : exists m i j, (Qabs qx < pow2 (m + 1))%Q /\ (Qabs qy < pow2 (m + 1))%Q /\ (qx == inject_Z i * pow2 (m - 1 - fb))%Q /\ (qy == inject_Z j * pow2 (m - 1 - fb))%Q).
  { destruct neg.
    - destruct (fl_unit qx (- qy)) as (m & i & j & A1 & A2 & A3 & A4); [assumption|apply isfl_neg; assumption| |assumption|intros Z0; apply Ny; lra|].
      + destruct Fz as (b & v & B & V & S). exists b, v. split; [assumption|]. split; [assumption|]. unfold Qminus in Q0. rewrite <- Q0. exact S.
      + exists m, i, (- j). rewrite Qabs_opp in A2. split; [assumption|]. split; [assumption|]. split; [assumption|]. rewrite inject_Z_opp. lra.
    - apply fl_unit; try assumption. destruct Fz as (b & v & B & V & S). exists b, v. split; [assumption|]. split; [assumption|]. rewrite <- Q0. exact S. }
  destruct U as (m & i & j & A1 & A2 & A3 & A4).
  assert (P : (pow2 (m - 1 - fb) == inject_Z (2 ^ (F - fb - 4)) * pow2 (m + 3 - F))%Q).
  { rewrite <- pow2_Z by lia. rewrite <- pow2_plus. replace (F - fb - 4 + (m + 3 - F)) with (m - 1 - fb) by lia. reflexivity. }
  destruct (fl_addsub bx by_ qx qy Bx By Vx Vy Nx Ny neg m (i * 2 ^ (F - fb - 4)) (j * 2 ^ (F - fb - 4)) A1 A2) as (x & y & Rx & Ry & S0 & S1);
    [rewrite A3, P, inject_Z_mult; ring|rewrite A4, P, inject_Z_mult; ring|].
  fold op in S0, S1.
  assert (EE : eb < E) by lia. pose proof (unpack_wide eb fb F E true FO WF WE EE bz FF Bz) as UW. rewrite Vz in UW.
  destruct UW as [[[Z0|[D _]] (e & f & R)]|[NZ [_ (n & e & f & R & Bf & QV)]]]; [|discriminate|].
  - exists x, y, (U Zero false e f), (u_special Zero false). split; [exact Rx|]. split; [exact Ry|]. split; [exact R|]. split; [apply S0; rewrite <- Q0; exact Z0|]. split; [split; reflexivity|]. intros H; exfalso; apply H; reflexivity.
  - exists x, y, (U Regular n e f), (U Regular n e f). split; [exact Rx|]. split; [exact Ry|]. split; [exact R|]. split.
    + rewrite <- R. symmetry. apply (S1 bz qz Bz Vz Q0). rewrite <- Q0. exact NZ.
    + split; [split; reflexivity|reflexivity].
Qed.
End floats.

Lemma fl_mul_all eb fb F E bx by_ qx qy bz qz :
  fmt_ok eb fb -> is_width F -> is_width E -> 16 <= E -> fb + 2 <= F ->
  0 <= bx < 2 ^ (eb + fb + 1) -> 0 <= by_ < 2 ^ (eb + fb + 1) -> 0 <= bz < 2 ^ (eb + fb + 1) ->
  ieee_val eb fb bx = FinVal qx -> ieee_val eb fb by_ = FinVal qy -> ieee_val eb fb bz = FinVal qz ->
  ~ (qx == 0)%Q -> ~ (qy == 0)%Q -> (qz == qx * qy)%Q ->
  let read := u_unpack_xfloati F E (any_floattrait eb fb true) in
  exists x y z, read bx = Ok x /\ read by_ = Ok y /\ read bz = Ok z /\ u_mul F E x y = Ok z.
Proof. intros. eapply fl_mul; try eassumption. lia. Qed.
Lemma fl_div_all eb fb F E bx by_ qx qy bz qz :
  fmt_ok eb fb -> is_width F -> is_width E -> 16 <= E -> fb + 2 <= F ->
  0 <= bx < 2 ^ (eb + fb + 1) -> 0 <= by_ < 2 ^ (eb + fb + 1) -> 0 <= bz < 2 ^ (eb + fb + 1) ->
  ieee_val eb fb bx = FinVal qx -> ieee_val eb fb by_ = FinVal qy -> ieee_val eb fb bz = FinVal qz ->
  ~ (qx == 0)%Q -> ~ (qy == 0)%Q -> (qz == qx / qy)%Q ->
  let read := u_unpack_xfloati F E (any_floattrait eb fb true) in
  exists x y z, read bx = Ok x /\ read by_ = Ok y /\ read bz = Ok z /\ u_div F E x y = Ok z.
Proof. intros. eapply fl_div; try eassumption. lia. Qed.
Lemma fl_add_all eb fb F E bx by_ qx qy bz qz (neg : bool) :
  fmt_ok eb fb -> is_width F -> is_width E -> 16 <= E -> fb + 4 <= F ->
  0 <= bx < 2 ^ (eb + fb + 1) -> 0 <= by_ < 2 ^ (eb + fb + 1) -> 0 <= bz < 2 ^ (eb + fb + 1) ->
  ieee_val eb fb bx = FinVal qx -> ieee_val eb fb by_ = FinVal qy -> ieee_val eb fb bz = FinVal qz ->
  ~ (qx == 0)%Q -> ~ (qy == 0)%Q -> (qz == if neg then qx - qy else qx + qy)%Q ->
  let read := u_unpack_xfloati F E (any_floattrait eb fb true) in
  let op := if neg then u_sub F E else u_add F E in
  exists x y z r, read bx = Ok x /\ read by_ = Ok y /\ read bz = Ok z /\ op x y = Ok r /\ (utyp r = utyp z /\ uneg r = uneg z) /\ (utyp z <> Zero -> r = z).
Proof. intros. eapply fl_add; try eassumption. lia. Qed.
Lemma fl_zero_all eb fb F E bx by_ qx qy :
  fmt_ok eb fb -> is_width F -> is_width E -> 16 <= E -> fb <= F ->
  0 <= bx < 2 ^ (eb + fb + 1) -> 0 <= by_ < 2 ^ (eb + fb + 1) ->
  ieee_val eb fb bx = FinVal qx -> ieee_val eb fb by_ = FinVal qy -> (qy == 0)%Q ->
  let read := u_unpack_xfloati F E (any_floattrait eb fb true) in
  exists x y, read bx = Ok x /\ read by_ = Ok y /\ u_add F E x y = Ok x /\ (~ (qx == 0)%Q -> u_add F E y x = Ok x) /\
    (exists z1 z2, u_mul F E x y = Ok z1 /\ u_mul F E y x = Ok z2 /\ utyp z1 = Zero /\ utyp z2 = Zero).
Proof.
  intros FO WF WE E16 FF Bx By Vx Vy Zy read. pose proof FO as [_ [E1 E2] Hf]. assert (EE : eb < E) by lia.
  pose proof (unpack_wide eb fb F E true FO WF WE EE by_ FF By) as UY. rewrite Vy in UY.
  destruct UY as [[_ (e & f & R)]|[NZ _]]; [|contradiction].
  pose proof (unpack_wide eb fb F E true FO WF WE EE bx FF Bx) as UX. rewrite Vx in UX.
  destruct UX as [[[Z0|[D _]] (e' & f' & R')]|[NZ [_ (n & e' & f' & R' & _ & _)]]]; [|discriminate|].
  - eexists _, _. split; [exact R'|]. split; [exact R|]. cbn. split; [reflexivity|]. split; [intros H; contradiction|]. eexists _, _. repeat split; reflexivity.
  - eexists _, _. split; [exact R'|]. split; [exact R|]. cbn. split; [reflexivity|]. split; [reflexivity|]. eexists _, _. repeat split; reflexivity.
Qed.
Lemma fl_sub_zero_bad :
  let read := u_unpack_xfloati 64 32 (any_floattrait 11 52 true) in
  (exists q, ieee_val 11 52 0x4020000000000000 = FinVal q /\ (q == 8)%Q) /\ (exists q, ieee_val 11 52 0 = FinVal q /\ (q == 0)%Q) /\
  exists x y, read 0x4020000000000000 = Ok x /\ read 0 = Ok y /\ u_sub 64 32 x y = UB ShiftCount.
Proof. cbv zeta. do 2 (split; [eexists; split; vm_compute; reflexivity|]). eexists _, _. do 2 (split; [vm_compute; reflexivity|]). vm_compute; reflexivity. Qed.
Lemma fl_narrow_bad :
  let read := u_unpack_xfloati 8 16 (any_floattrait 8 7 true) in
  (exists q, ieee_val 8 7 0x3f81 = FinVal q /\ (q == 129 # 128)%Q) /\ (exists q, ieee_val 8 7 0x4001 = FinVal q /\ (q == 129 # 64)%Q) /\
  (exists q, ieee_val 8 7 0x4000 = FinVal q /\ (q == 2)%Q) /\
  exists x z r, read 0x3f81 = Ok x /\ read 0x4001 = Ok z /\ read 0x4000 = Ok r /\ u_add 8 16 x x = Ok r /\ r <> z.
Proof. cbv zeta. do 3 (split; [eexists; split; vm_compute; reflexivity|]). eexists _, _, _. split; [vm_compute; reflexivity|]. split; [vm_compute; reflexivity|]. split; [vm_compute; reflexivity|]. split; [vm_compute; reflexivity|discriminate]. Qed.
