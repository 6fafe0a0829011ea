(** Inverses and doubles of unpacked numbers that were read from floats. *)
From Coq Require Import ZArith QArith Qabs Lia Lqa Bool List.
From Verif Require Import Res CInt Bits Traits Unpacked Cfg Spec QPow Core Arith UOps UAdd Ops OpsAdd Final1 Conv1 Misc2 UAdd2 FloatArith DivAny.
Open Scope Z_scope.

(** The inverse of a number with 16 clear bits does not have one of the fractions that are inverted badly. *)
Lemma inv_frac F e f f1 : 8 <= F -> 0 < f < 2 ^ F -> f mod 16 = 0 -> cell F (- e - 1) f1 0 (1 / uabs F e f) -> 8 <= f1.
Proof.
  intros HF B M (Bf & _ & _ & _ & U). change (2 ^ 0) with 1 in U.
  pose proof (uabs_pos F e f ltac:(lia) ltac:(lia)) as PA.
  assert (U' : (1 < dy (2 ^ F + f1 + 1) (- e - 1 - F) * uabs F e f)%Q).
  { assert (X : (1 == 1 / uabs F e f * uabs F e f)%Q) by (field; lra). rewrite X at 1. apply Qmult_lt_r; assumption. }
  unfold uabs, dy in U'.
  assert (X : (inject_Z (2 ^ F + f1 + 1) * pow2 (- e - 1 - F) * (inject_Z (2 ^ F + f) * pow2 (e - F)) == dy ((2 ^ F + f1 + 1) * (2 ^ F + f)) (- 1 - 2 * F))%Q).
  { unfold dy. rewrite inject_Z_mult. replace (- 1 - 2 * F) with ((- e - 1 - F) + (e - F)) by lia. rewrite pow2_plus. ring. }
  rewrite X in U'. assert (Y : (1 == dy (2 ^ (2 * F + 1)) (- 1 - 2 * F))%Q).
  { unfold dy. rewrite <- pow2_Z by lia. rewrite <- pow2_plus. replace (2 * F + 1 + (-1 - 2 * F)) with 0 by lia. reflexivity. }
  rewrite Y in U'. apply dy_lt_inv in U'. rewrite pow2_S in U' by lia. replace (2 * F) with (F + F) in U' by lia. rewrite Z.pow_add_r in U' by lia.
  assert (PF : 2 ^ F = 16 * 2 ^ (F - 4)) by (replace F with (4 + (F - 4)) at 1 by lia; rewrite Z.pow_add_r by lia; reflexivity).
  pow_pos 2 (F - 4). pose proof (Z.div_mod f 16 ltac:(lia)) as DM. rewrite M in DM.
  assert (FU : f <= 2 ^ F - 16) by lia. set (T := 2 ^ F) in *. clearbody T. clear - U' FU Bf B PF H. nia.
Qed.

Lemma mod16 F fb f : fb + 4 <= F -> f mod 2 ^ (F - fb) = 0 -> f mod 16 = 0.
Proof. intros FF M. apply (mod_lower f 4 (F - fb)); [lia|exact M]. Qed.
Lemma mod4 f : f mod 16 = 0 -> f mod 4 = 0.
Proof. intros M. apply (mod_lower f 2 4); [lia|exact M]. Qed.

Section laws.
Variables eb fb F E : Z.
Hypothesis FO : fmt_ok eb fb.
Hypothesis WF : is_width F.
Hypothesis WE : is_width E.
Hypothesis E16 : 16 <= E.
Hypothesis FF : fb + 4 <= F.
Notation read := (u_unpack_xfloati F E (any_floattrait eb fb true)).
Variable b : Z.
Variable q : Q.
Hypothesis B : 0 <= b < 2 ^ (eb + fb + 1).
Hypothesis V : ieee_val eb fb b = FinVal q.
Hypothesis NZ : ~ (q == 0)%Q.

Lemma fl_frexp : exists n e f, read b = Ok (U Regular n e f) /\ (pow2 e <= Qabs q)%Q /\ (Qabs q < pow2 (e + 1))%Q /\ (n = true <-> (q < 0)%Q).
Proof using FO WF WE E16 FF B V NZ.
  destruct (read_ok eb fb F E FO WF WE E16 ltac:(lia) b q B V NZ) as (n & e & f & R & Bf & _ & _ & Q0). pose proof (is_width_pos F WF) as WP.
  exists n, e, f. split; [exact R|]. destruct (uabs_scale F e f ltac:(lia) Bf) as [S1 S2]. rewrite <- Q0. rewrite uvalue_abs by lia. split; [exact S1|]. split; [exact S2|].
  rewrite uvalue_uval by lia. pose proof (pow2_pos e). unfold uval. destruct n; split; try discriminate; try (intros; lra).
Qed.

Lemma fl_double : exists n e f d, read b = Ok (U Regular n e f) /\ u_mul F E (U Regular false 1 0) (U Regular n e f) = Ok d /\
  u_add F E (U Regular n e f) (U Regular n e f) = Ok d /\ u_div F E d (U Regular n e f) = Ok (U Regular false 1 0) /\
  d = U Regular n (e + 1) f /\ (uvalue F n (e + 1) f == 2 * q)%Q.
Proof using FO WF WE E16 FF B V NZ.
  destruct (read_ok eb fb F E FO WF WE E16 ltac:(lia) b q B V NZ) as (n & e & f & R & Bf & M & Be & Q0). pose proof (is_width_pos F WF) as WP.
  pose proof (mod4 f (mod16 F fb f FF M)) as M4. pose proof (E_room E E16) as ER.
  assert (V2 : (uvalue F n (e + 1) f == 2 * q)%Q).
  { rewrite <- Q0. unfold uvalue. rewrite pow2_plus. change (pow2 1) with 2%Q. ring. }
  exists n, e, f, (U Regular n (e + 1) f). split; [exact R|]. split; [apply mul_two; try assumption; pose proof (ER (e + 1) ltac:(lia)); pose proof (ER (e + 2) ltac:(lia)); lia|].
  split; [apply add_self; try assumption; pose proof (ER e ltac:(lia)); pose proof (ER (e + 1) ltac:(lia)); lia|].
  split; [|split; [reflexivity|exact V2]].
  pow_pos 2 F. pose proof (ER (e + 1 - e - 1) ltac:(lia)) as ER1. pose proof (ER (e + 1 - e) ltac:(lia)) as ER2.
  apply div_exact; [assumption|assumption|assumption|assumption|lia|lia|lia|apply (mod_lower f 1 2); [lia|exact M4]|exact M4|].
  rewrite V2, Q0. unfold uvalue. change (inject_Z 0) with 0%Q. change (pow2 1) with 2%Q. unfold Qdiv. ring.
Qed.

Lemma fl_inverse : exists n e f ei fi ej fj er fr, read b = Ok (U Regular n e f) /\
  u_inv F E (U Regular n e f) = Ok (U Regular n ei fi) /\ u_inv F E (U Regular n ei fi) = Ok (U Regular n ej fj) /\
  u_mul F E (U Regular n e f) (U Regular n ei fi) = Ok (U Regular false er fr) /\
  (Qabs (uvalue F n ei fi - 1 / q) <= pow2 (- F) * Qabs (1 / q))%Q /\
  (Qabs (uvalue F n ej fj - q) <= pow2 (3 - F) * Qabs q)%Q /\
  (Qabs (uvalue F false er fr - 1) <= pow2 (4 - F))%Q.
Proof using FO WF WE E16 FF B V NZ.
  destruct (read_ok eb fb F E FO WF WE E16 ltac:(lia) b q B V NZ) as (n & e & f & R & Bf & M & Be & Q0). pose proof (is_width_pos F WF) as WP.
  pose proof (E_room E E16) as ER.
  pose proof (mod16 F fb f FF M) as M16. pose proof (mod4 f M16) as M4. pow_pos 2 F.
  pose proof (uabs_pos F e f ltac:(lia) ltac:(lia)) as PA.
  pose proof (pow2_pos (- F)) as P. assert (Le : (pow2 (- F) <= 1 # 256)%Q) by (change (1 # 256) with (pow2 (-8)); apply pow2_le; lia).
  assert (I : exists ei fi, u_inv F E (U Regular n e f) = Ok (U Regular n ei fi) /\ 0 <= fi < 2 ^ F /\ - e - 1 <= ei <= - e /\ (fi = 0 \/ 8 <= fi) /\
    (uabs F ei fi <= 1 / uabs F e f)%Q /\ ((1 - pow2 (- F)) * (1 / uabs F e f) <= uabs F ei fi)%Q).
  { destruct (Z.eq_dec f 0) as [->|N0].
    - exists (- e), 0. split.
      { unfold u_inv. cbn [utyp ufrac uexp uneg Z.eqb]. unfold cneg. rewrite pE_arith by (try assumption; apply ER; lia). cbn [bind]. unfold u_mk. rewrite cast_s_small, cast_u_small by (try lia; apply ER; lia). reflexivity. }
      split; [lia|]. split; [lia|]. split; [left; reflexivity|].
      assert (X : (1 / uabs F e 0 == uabs F (- e) 0)%Q).
      { unfold uabs. rewrite !Z.add_0_r, <- (Z.mul_1_l (2 ^ F)), !dy_pow by lia. replace (e - F + F) with e by lia. replace (- e - F + F) with (- e) by lia. unfold dy. change (inject_Z 1) with 1%Q. rewrite !Qmult_1_l, pow2_opp. unfold Qdiv. ring. }
      rewrite X. split; [apply Qle_refl|]. pose proof (uabs_pos F (- e) 0 ltac:(lia) ltac:(lia)). nra.
    - destruct (u_inv_spec F E n e f WF WE ltac:(lia) M4) as (fi & R' & C); [pose proof (ER (- e - 1) ltac:(lia)); lia|pose proof (ER (- e) ltac:(lia)); lia|].
      exists (- e - 1), fi. split; [exact R'|]. split; [apply C|]. split; [lia|]. split; [right; apply (inv_frac F e f fi); [lia|lia|assumption|assumption]|].
      apply cell_bound in C; [|lia]. change (0 - F) with (- F) in C. exact C. }
  destruct I as (ei & fi & I1 & I2 & I3 & I4 & I5 & I6).
  assert (J1 : exists ej fj, u_inv F E (U Regular n ei fi) = Ok (U Regular n ej fj) /\ 0 <= fj < 2 ^ F /\
     ((1 - pow2 (1 - F)) * Qabs (uvalue F false 0 0 / uvalue F n ei fi) <= Qabs (uvalue F n ej fj))%Q /\ (Qabs (uvalue F n ej fj) <= (1 + pow2 (2 - F)) * Qabs (uvalue F false 0 0 / uvalue F n ei fi))%Q).
  { rewrite inv_is_div; try assumption; [|pose proof (ER (- ei - 1) ltac:(lia)); lia|pose proof (ER (- ei) ltac:(lia)); lia].
    destruct (div_any F E false n 0 ei 0 fi WF WE ltac:(lia) I2) as (ej & fj & J & Bj & _ & L & H1);
      [pose proof (ER (0 - ei - 1) ltac:(lia)); lia|pose proof (ER (0 - ei) ltac:(lia)); lia| |].
    - intros [K1 K2]. change (0 / 2) with 0 in K2. pose proof (Z.div_mod fi 2 ltac:(lia)). pose proof (Z.mod_pos_bound fi 2 ltac:(lia)). lia.
    - rewrite xorb_false_l in *. exists ej, fj. split; [exact J|]. split; [exact Bj|]. split; [exact L|exact H1]. }
  destruct J1 as (ej & fj & J1 & J2 & J3 & J4).
  destruct (mul_error F E n n e ei f fi WF WE Bf I2) as (er & fr & R1 & R2 & R3 & R4 & _); [pose proof (ER (e + ei) ltac:(lia)); lia|pose proof (ER (e + ei + 1) ltac:(lia)); lia|].
  rewrite xorb_nilpotent in *.
  exists n, e, f, ei, fi, ej, fj, er, fr. split; [exact R|]. split; [exact I1|]. split; [exact J1|]. split; [exact R1|].
  assert (ONE : (uvalue F false 0 0 == 1)%Q) by (unfold uvalue; change (inject_Z 0) with 0%Q; change (pow2 0) with 1%Q; unfold Qdiv; ring).
  unfold Qdiv in J3, J4. rewrite Qabs_Qmult, Qabs_Qinv in J3, J4.
  rewrite ONE in J3, J4. change (Qabs 1) with 1%Q in J3, J4.
  rewrite Qabs_Qmult in R3, R4. rewrite (uvalue_abs F n e f), (uvalue_abs F n ei fi), (uvalue_abs F false er fr) in R3, R4 by lia. rewrite (uvalue_abs F n ei fi), (uvalue_abs F n ej fj) in J3, J4 by lia.
  pose proof (uabs_pos F ei fi ltac:(lia) ltac:(lia)) as PI. pose proof (uabs_pos F ej fj ltac:(lia) ltac:(lia)) as PJ. pose proof (uabs_pos F er fr ltac:(lia) ltac:(lia)) as PR.
  assert (Q1 : (pow2 (1 - F) == 2 * pow2 (- F))%Q) by (replace (1 - F) with (1 + - F) by lia; rewrite pow2_plus; reflexivity).
  assert (Q2 : (pow2 (2 - F) == 4 * pow2 (- F))%Q) by (replace (2 - F) with (2 + - F) by lia; rewrite pow2_plus; reflexivity).
  assert (Q3 : (pow2 (3 - F) == 8 * pow2 (- F))%Q) by (replace (3 - F) with (3 + - F) by lia; rewrite pow2_plus; reflexivity).
  assert (Q4 : (pow2 (4 - F) == 16 * pow2 (- F))%Q) by (replace (4 - F) with (4 + - F) by lia; rewrite pow2_plus; reflexivity).
  rewrite Q1 in J3. rewrite Q2 in J4. rewrite Q3 in R4. rewrite Q3, Q4.
  assert (SG : forall x y c, (0 < x)%Q -> (0 < y)%Q -> (x - y <= c)%Q -> (y - x <= c)%Q -> (Qabs ((if n then - x else x) - (if n then - y else y)) <= c)%Q).
  { intros x y c _ _ C1 C2. apply Qabs_Qle_condition. destruct n; split; lra. }
  rewrite !uvalue_uval by lia. rewrite uvalue_uval in Q0 by lia. unfold uval in *.
  assert (AQ : (Qabs q == uabs F e f)%Q) by (rewrite <- Q0; destruct n; [rewrite Qabs_opp|]; apply Qabs_pos; lra).
  set (A := uabs F e f) in *. set (X := uabs F ei fi) in *. set (Y := uabs F ej fj) in *. set (Z := uabs F er fr) in *. set (u := pow2 (- F)) in *.
  assert (IQ : (1 / q == if n then - (1 / A) else 1 / A)%Q) by (rewrite <- Q0; destruct n; [field; lra|reflexivity]).
  assert (AIQ : (Qabs (1 / q) == 1 / A)%Q) by (unfold Qdiv; rewrite Qmult_1_l, Qabs_Qinv, AQ; ring).
  assert (PIA : (0 < 1 / A)%Q) by (apply Qlt_shift_div_l; lra).
  assert (AX : ((1 - u) <= A * X)%Q /\ (A * X <= 1)%Q).
  { assert (E1 : (A * (1 / A) == 1)%Q) by (field; lra). set (ia := (1 / A)%Q) in *. clearbody ia A X u. clear - E1 I5 I6 PA. split; [|nra].
    assert (T : (A * ((1 - u) * ia) <= A * X)%Q) by (apply Qmult_le_l; assumption). assert (T2 : (A * ((1 - u) * ia) == (1 - u) * (A * ia))%Q) by ring. rewrite T2, E1 in T. lra. }
  split; [|split].
  - rewrite AIQ, IQ. apply SG; try assumption; lra.
  - rewrite AQ. rewrite <- Q0. 
    assert (E2 : (X * (1 * / X) == 1)%Q) by (field; lra). set (ix := (1 * / X)%Q) in *. clearbody ix A X Y u. clear - SG E2 J3 J4 AX PA PI PJ P Le.
    destruct AX as [AX1 AX2].
    assert (PX : (0 < ix)%Q) by nra.
    assert (B1 : (A <= ix)%Q). { assert (A * X * ix <= 1 * ix)%Q by nra. assert (A * X * ix == A)%Q by (assert (T : (A * X * ix == A * (X * ix))%Q) by ring; rewrite T, E2; ring). lra. }
    assert (B2 : ((1 - u) * ix <= A)%Q). { assert ((1 - u) * ix <= A * X * ix)%Q by nra. assert (A * X * ix == A)%Q by (assert (T : (A * X * ix == A * (X * ix))%Q) by ring; rewrite T, E2; ring). lra. }
    assert (B3 : (ix <= (1 + 2 * u) * A)%Q).
    { assert (T : ((1 - u) * ix <= (1 - u) * ((1 + 2 * u) * A))%Q); [|nra]. assert (T2 : ((1 - u) * ((1 + 2 * u) * A) == A + u * (1 - 2 * u) * A)%Q) by ring. rewrite T2. assert (0 <= u * (1 - 2 * u))%Q by nra. nra. }
    apply SG; try assumption.
    + assert (T : ((1 + 4 * u) * ix <= (1 + 4 * u) * ((1 + 2 * u) * A))%Q) by (apply Qmult_le_l; [lra|assumption]). assert (T2 : ((1 + 4 * u) * ((1 + 2 * u) * A) == (1 + 6 * u + 8 * (u * u)) * A)%Q) by ring. rewrite T2 in T.
      assert (U2 : (u * u <= (1 # 256) * u)%Q) by nra. assert (T3 : ((1 + 6 * u + 8 * (u * u)) * A <= (1 + 8 * u) * A)%Q) by (apply Qmult_le_r; [assumption|lra]). lra.
    + assert (T : ((1 - 2 * u) * A <= (1 - 2 * u) * ix)%Q) by (apply Qmult_le_l; [lra|assumption]). assert (0 <= u * A)%Q by nra. lra.
  - cbv iota. apply Qabs_Qle_condition. clearbody A X Z u. clear - R3 R4 AX P Le. destruct AX. split; [|lra].
    assert ((1 - 8 * u) * (1 - u) <= (1 - 8 * u) * (A * X))%Q by (apply Qmult_le_l; [lra|assumption]). assert (0 <= u * u)%Q by nra. lra.
Qed.
End laws.
Lemma two_value F : (uvalue F false 1 0 == 2)%Q.
Proof. unfold uvalue. change (inject_Z 0) with 0%Q. change (pow2 1) with 2%Q. unfold Qdiv. ring. Qed.
Lemma inv_narrow_bad :
  exists q, ieee_val 8 7 0x42ff = FinVal q /\ (q == 255 # 2)%Q /\
  exists x i, u_unpack_xfloati 8 16 (any_floattrait 8 7 true) 0x42ff = Ok x /\ u_inv 8 16 x = Ok i /\ u_inv 8 16 i = Ok (U Regular false 6 0) /\
    (uvalue 8 false 6 0 == 64)%Q.
Proof. eexists. split; [vm_compute; reflexivity|]. split; [vm_compute; reflexivity|]. eexists _, _. do 3 (split; [vm_compute; reflexivity|]). vm_compute; reflexivity. Qed.
