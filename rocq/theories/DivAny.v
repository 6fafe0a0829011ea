(** Division and inversion of unpacked numbers with any fractions. *)
From Coq Require Import ZArith QArith Qabs Lia Lqa Bool List.
From Verif Require Import Res CInt Bits Traits Unpacked Cfg Spec QPow Core Arith UOps UAdd Ops OpsAdd Final1 Conv1 Misc2 UAdd2.
Open Scope Z_scope.

Lemma u_div_spec2 F E na nb ea eb fa fb : is_width F -> is_width E ->
  0 <= fa < 2 ^ F -> 0 <= fb < 2 ^ F -> fb mod 2 = 0 -> (fa / 2 < fb / 2 -> fb mod 4 = 0) ->
  - 2 ^ (E - 1) <= ea - eb - 1 -> ea - eb < 2 ^ (E - 1) ->
  exists e f,
    u_div F E (U Regular na ea fa) (U Regular nb eb fb) = Ok (U Regular (xorb na nb) e f) /\
    ea - eb - 1 <= e <= ea - eb /\
    cell F e f 0 (dy (2 ^ F + 2 * (fa / 2)) (ea - F) / uabs F eb fb).
Proof.
  intros WF WE Ha Hb M2 M4 E1 E2. pose proof (is_width_pos F WF) as BF. pose proof (is_width_pos E WE) as BE.
  destruct (hidden F fa WF Ha) as [A1 A2]. destruct (hidden F fb WF Hb) as [B1 B2].
  unfold u_div. cbn [u_isNaN utype_eqb utyp orb uneg uexp ufrac].
  rewrite !pF_shr by (try assumption; unfold pw; lia). cbn [bind].
  rewrite A1, B1. clear A1 B1.
  assert (EF : 2 ^ F = 2 * 2 ^ (F - 1)) by (replace F with ((F - 1) + 1) at 1 by lia; apply pow2_S; lia).
  assert (EF2 : 2 ^ (F - 1) = 2 * 2 ^ (F - 2)) by (replace (F - 1) with ((F - 2) + 1) by lia; apply pow2_S; lia).
  assert (F2 : fb = 2 * (fb / 2)) by (pose proof (Z.div_mod fb 2 ltac:(lia)); lia).
  set (a := 2 ^ (F - 1) + fa / 2) in *. set (b := 2 ^ (F - 1) + fb / 2) in *.
  assert (Ev : a < b -> b mod 2 = 0).
  { intros L. specialize (M4 ltac:(unfold a, b in L; lia)). assert (F4 : fb = 4 * (fb / 4)) by (pose proof (Z.div_mod fb 4 ltac:(lia)); lia).
    unfold b. replace (fb / 2) with (2 * (fb / 4)) by lia. rewrite EF2. replace (2 * 2 ^ (F - 2) + 2 * (fb / 4)) with ((2 ^ (F - 2) + fb / 4) * 2) by ring.
    apply Z.mod_mul. lia. }
  destruct (quot_spec F a b WF ltac:(unfold a; lia) ltac:(unfold b; lia) Ev)
    as [Q1 [Q2 [Q3 [q [Q4 [Q5 Q6]]]]]].
  unfold csub. rewrite pE_arith by (try assumption; lia). cbn [bind].
  unfold cadd. rewrite pE_arith by (try assumption; destruct (a <? b); lia). cbn [bind].
  assert (BB : (if a <? b then let! r := cshr (pF F) b 1 in Ok (cast (uint F) r) else Ok b)
               = Ok (if a <? b then b / 2 else b)).
  { destruct (a <? b); [rewrite Q2; cbn [bind]; rewrite Q3|]; reflexivity. }
  rewrite BB, Q1. cbn [bind]. rewrite Q4. cbn [bind].
  unfold u_mk. rewrite cast_s_small by (destruct (a <? b); lia).
  assert (CF : cast (uint F) q = q - 2 ^ F).
  { rewrite cast_u. symmetry. apply (Z.mod_unique _ _ 1); lia. }
  rewrite CF. clear Q1 Q2 Q3 Q4 BB CF.
  eexists _, _. split; [reflexivity|]. split; [destruct (a <? b); lia|].
  split; [lia|]. split; [lia|]. split; [apply Z.mod_1_r|].
  unfold uabs. change (2 ^ 0) with 1. replace (2 ^ F + (q - 2 ^ F)) with q by lia.
  assert (Hb' : 0 < b) by (unfold b; pow_pos 2 (F - 1); lia).
  set (lt := if a <? b then 1 else 0).
  replace (ea - eb + (if a <? b then -1 else 0)) with (ea - eb - lt) by (unfold lt; destruct (a <? b); lia).
  assert (HL : 0 <= lt <= 1) by (unfold lt; destruct (a <? b); lia).
  apply (dy_div_cell a b q (F + lt)); [assumption|lia| |].
  - rewrite Z.pow_add_r by lia. replace (2 ^ lt) with (if a <? b then 2 else 1) by (unfold lt; destruct (a <? b); reflexivity).
    rewrite Z.mul_assoc. exact Q6.
  - replace (2 ^ F + 2 * (fa / 2)) with (a * 2 ^ 1) by (unfold a; lia).
    replace (2 ^ F + fb) with (b * 2 ^ 1) by (unfold b; lia).
    rewrite (dy_pow a (ea - F) 1), (dy_pow b (eb - F) 1) by lia.
    rewrite (dy_div a b _ _ (ea - eb - lt - F)) by lia.
    replace (ea - F + 1 - (eb - F + 1) - (ea - eb - lt - F)) with (F + lt) by lia. reflexivity.
Qed.

(** The quotient only looks at the divisor without its low bits. *)
Lemma u_div_cut F E na nb ea eb fa fb fb' : is_width F -> 0 <= fa < 2 ^ F -> 0 <= fb < 2 ^ F -> 0 <= fb' < 2 ^ F ->
  (fb / 2 = fb' / 2 \/ (fa / 2 < fb / 2 /\ fa / 2 < fb' / 2 /\ fb / 4 = fb' / 4)) ->
  u_div F E (U Regular na ea fa) (U Regular nb eb fb) = u_div F E (U Regular na ea fa) (U Regular nb eb fb').
Proof.
  intros WF Ha Hb Hb' C. pose proof (is_width_pos F WF) as BF.
  destruct (hidden F fa WF Ha) as [A1 A2]. destruct (hidden F fb WF Hb) as [B1 B2]. destruct (hidden F fb' WF Hb') as [B1' B2'].
  unfold u_div. cbn [u_isNaN utype_eqb utyp orb uneg uexp ufrac].
  rewrite !pF_shr by (try assumption; unfold pw; lia). cbn [bind]. rewrite A1, B1, B1'.
  destruct C as [C|(C1 & C2 & C3)]; [rewrite C; reflexivity|].
  assert (L1 : (2 ^ (F - 1) + fa / 2 <? 2 ^ (F - 1) + fb / 2) = true) by (apply Z.ltb_lt; lia).
  assert (L2 : (2 ^ (F - 1) + fa / 2 <? 2 ^ (F - 1) + fb' / 2) = true) by (apply Z.ltb_lt; lia).
  rewrite L1, L2.
  assert (EF : 2 ^ F = 2 * 2 ^ (F - 1)) by (replace F with ((F - 1) + 1) at 1 by lia; apply pow2_S; lia).
  assert (EF2 : 2 ^ (F - 1) = 2 * 2 ^ (F - 2)) by (replace (F - 1) with ((F - 2) + 1) by lia; apply pow2_S; lia).
  pow_pos 2 (F - 2).
  assert (HH : forall f, 0 <= f < 2 ^ F -> (2 ^ (F - 1) + f / 2) / 2 ^ 1 = 2 ^ (F - 2) + f / 4).
  { intros f Bf. change (2 ^ 1) with 2. rewrite EF2, Z.add_comm, (Z.mul_comm 2), Z.div_add by lia. rewrite Z.div_div by lia. change (2 * 2) with 4. lia. }
  rewrite !pF_shr by (try assumption; unfold pw; lia). cbn [bind]. rewrite !HH by assumption. rewrite C3. reflexivity.
Qed.

(** The low bits of the divisor change little. *)
Lemma low_bound F e f g : 0 < F -> 0 <= g <= f -> f < g + 4 -> f < 2 ^ F ->
  (uabs F e g <= uabs F e f)%Q /\ ((1 - 3 * pow2 (- F)) * uabs F e f <= uabs F e g)%Q.
Proof.
  intros HF G1 G2 B. unfold uabs. split; [apply dy_le; lia|].
  assert (L : (dy (2 ^ F + f) (e - F) <= dy (2 ^ F + g + 3) (e - F))%Q) by (apply dy_le; lia).
  rewrite <- (dy_add (2 ^ F + g) 3) in L.
  assert (G : (pow2 e <= dy (2 ^ F + f) (e - F))%Q).
  { assert (D : (pow2 e == dy (2 ^ F) (e - F))%Q) by (rewrite <- (Z.mul_1_l (2 ^ F)), dy_pow by lia; replace (e - F + F) with e by lia; unfold dy; ring).
    rewrite D. apply dy_le. lia. }
  assert (D3 : (dy 3 (e - F) == 3 * pow2 (- F) * pow2 e)%Q) by (unfold dy; replace (e - F) with (- F + e) by lia; rewrite pow2_plus; change (inject_Z 3) with 3%Q; ring).
  rewrite D3 in L. pose proof (pow2_pos (- F)). set (x := dy (2 ^ F + f) (e - F)) in *. set (y := dy (2 ^ F + g) (e - F)) in *. set (u := pow2 (- F)) in *. set (p := pow2 e) in *.
  clearbody x y u p. clear - L G H. nra.
Qed.

Lemma div_any F E na nb ea eb fa fb : is_width F -> is_width E -> 0 <= fa < 2 ^ F -> 0 <= fb < 2 ^ F ->
  - 2 ^ (E - 1) <= ea - eb - 1 -> ea - eb < 2 ^ (E - 1) ->
  ~ (fb mod 4 >= 2 /\ fa / 2 = fb / 2 - 1) ->
  exists e f, u_div F E (U Regular na ea fa) (U Regular nb eb fb) = Ok (U Regular (xorb na nb) e f) /\ 0 <= f < 2 ^ F /\ ea - eb - 1 <= e <= ea - eb /\
    let x := (uvalue F na ea fa / uvalue F nb eb fb)%Q in
    let r := uvalue F (xorb na nb) e f in
    ((1 - pow2 (1 - F)) * Qabs x <= Qabs r)%Q /\ (Qabs r <= (1 + pow2 (2 - F)) * Qabs x)%Q.
Proof.
  intros WF WE Ba Bb E1 E2 NB. pose proof (is_width_pos _ WF) as BF.
  pose proof (Z.div_mod fb 4 ltac:(lia)) as D4. pose proof (Z.mod_pos_bound fb 4 ltac:(lia)) as M4. pose proof (Z.div_mod fb 2 ltac:(lia)) as D2. pose proof (Z.mod_pos_bound fb 2 ltac:(lia)) as M2.
  assert (S : exists g, 0 <= g <= fb /\ fb < g + 4 /\ g mod 2 = 0 /\ (fa / 2 < g / 2 -> g mod 4 = 0) /\
    (fb / 2 = g / 2 \/ (fa / 2 < fb / 2 /\ fa / 2 < g / 2 /\ fb / 4 = g / 4))).
  { destruct (Z_lt_ge_dec (fa / 2) (fb / 2)) as [L|L].
    - exists (4 * (fb / 4)).
      assert (X : 4 * (fb / 4) / 2 = 2 * (fb / 4)) by (replace (4 * (fb / 4)) with (2 * (fb / 4) * 2) by ring; apply Z.div_mul; lia).
      assert (Y : 4 * (fb / 4) / 4 = fb / 4) by (rewrite Z.mul_comm; apply Z.div_mul; lia).
      split; [lia|]. split; [lia|]. split; [replace (4 * (fb / 4)) with (2 * (fb / 4) * 2) by ring; apply Z.mod_mul; lia|].
      split; [intros _; rewrite Z.mul_comm; apply Z.mod_mul; lia|]. rewrite X, Y. right. lia.
    - exists (2 * (fb / 2)).
      assert (X : 2 * (fb / 2) / 2 = fb / 2) by (rewrite Z.mul_comm; apply Z.div_mul; lia).
      split; [lia|]. split; [lia|]. split; [rewrite Z.mul_comm; apply Z.mod_mul; lia|]. rewrite X. split; [lia|]. left. reflexivity. }
  destruct S as (g & G1 & G2 & G3 & G4 & G5).
  rewrite (u_div_cut F E na nb ea eb fa fb g) by (try assumption; lia).
  destruct (u_div_spec2 F E na nb ea eb fa g WF WE Ba ltac:(lia) G3 G4 E1 E2) as (e & f & R & RE & C).
  exists e, f. split; [assumption|]. assert (Bf : 0 <= f < 2 ^ F) by apply C. split; [assumption|]. split; [assumption|]. cbv zeta.
  unfold Qdiv in *. rewrite Qabs_Qmult, Qabs_Qinv, !uvalue_abs by lia.
  apply cell_bound in C; [|lia]. destruct C as [C1 C2].
  destruct (cut_bound F ea fa ltac:(lia) Ba) as (A1 & A2 & _). destruct (low_bound F eb fb g ltac:(lia) G1 G2 ltac:(lia)) as [B1 B2].
  pose proof (uabs_pos F ea fa ltac:(lia) ltac:(lia)) as PA. pose proof (uabs_pos F eb fb ltac:(lia) ltac:(lia)) as PB. pose proof (uabs_pos F eb g ltac:(lia) ltac:(lia)) as PG.
  set (A := uabs F ea fa) in *. set (B := uabs F eb fb) in *. set (G := uabs F eb g) in *. set (A' := dy (2 ^ F + 2 * (fa / 2)) (ea - F)) in *. set (r := uabs F e f) in *.
  assert (Q1 : (pow2 (1 - F) == 2 * pow2 (- F))%Q) by (replace (1 - F) with (1 + - F) by lia; rewrite pow2_plus; reflexivity).
  assert (Q2 : (pow2 (2 - F) == 4 * pow2 (- F))%Q) by (replace (2 - F) with (2 + - F) by lia; rewrite pow2_plus; reflexivity).
  pose proof (pow2_pos (- F)) as P. assert (Le : (pow2 (- F) <= 1 # 256)%Q) by (change (1 # 256) with (pow2 (-8)); apply pow2_le; lia).
  change (0 - F) with (- F) in C2. rewrite Q1, Q2. set (u := pow2 (- F)) in *.
  assert (IB : (/ B <= / G)%Q) by (apply Qle_shift_inv_l; [assumption|]; rewrite Qmult_comm; apply Qle_shift_div_r; [assumption|lra]).
  assert (IG : ((1 - 3 * u) * / G <= / B)%Q).
  { apply Qle_shift_inv_l; [assumption|]. assert (X : ((1 - 3 * u) * / G * B == (1 - 3 * u) * B * / G)%Q) by ring. rewrite X. apply Qle_shift_div_r; [assumption|]. lra. }
  apply Qinv_lt_0_compat in PB. apply Qinv_lt_0_compat in PG. set (I := (/ B)%Q) in *. set (J := (/ G)%Q) in *.
  clearbody A A' r u I J. clear - C1 C2 A1 A2 PA PB PG P Le IB IG.
  assert (IG' : (J <= (1 + 4 * u) * I)%Q).
  { assert (X : ((1 - 3 * u) * J <= (1 - 3 * u) * ((1 + 4 * u) * I))%Q); [|nra].
    assert (Y : ((1 - 3 * u) * ((1 + 4 * u) * I) == I + u * (1 - 12 * u) * I)%Q) by ring. rewrite Y. assert (0 <= u * (1 - 12 * u))%Q by nra. nra. }
  assert (X0 : (0 < A * I)%Q) by nra. split.
  - assert (X1 : ((1 - u) * A * I <= A' * J)%Q). { assert (0 < (1 - u) * A)%Q by nra. nra. }
    assert (EX : ((1 - u) * A * I == (1 - u) * (A * I))%Q) by ring. rewrite EX in X1. set (x := (A * I)%Q) in *. set (y := (A' * J)%Q) in *. clearbody x y.
    assert ((1 - u) * ((1 - u) * x) <= (1 - u) * y)%Q by nra. assert (0 <= u * u * x)%Q by nra. nra.
  - assert (X1 : (A' * J <= A * J)%Q) by nra. assert (X2 : (A * J <= A * ((1 + 4 * u) * I))%Q) by nra.
    assert (EX : (A * ((1 + 4 * u) * I) == (1 + 4 * u) * (A * I))%Q) by ring. rewrite EX in X2. lra.
Qed.

(** The remaining divisors: the quotient is a power of two, about half of what it should be. *)
Lemma div_half F E na nb ea eb fa fb : is_width F -> is_width E -> 0 <= fa < 2 ^ F -> 0 <= fb < 2 ^ F ->
  - 2 ^ (E - 1) <= ea - eb - 1 -> ea - eb < 2 ^ (E - 1) ->
  fb mod 4 >= 2 -> fa / 2 = fb / 2 - 1 ->
  u_div F E (U Regular na ea fa) (U Regular nb eb fb) = Ok (U Regular (xorb na nb) (ea - eb - 1) 0) /\
  ((1 - pow2 (2 - F)) * Qabs (uvalue F na ea fa / uvalue F nb eb fb) <= 2 * Qabs (uvalue F (xorb na nb) (ea - eb - 1) 0))%Q /\
  (2 * Qabs (uvalue F (xorb na nb) (ea - eb - 1) 0) <= (1 + pow2 (2 - F)) * Qabs (uvalue F na ea fa / uvalue F nb eb fb))%Q.
Proof.
  intros WF WE Ha Hb E1 E2 M4 K. pose proof (is_width_pos F WF) as BF. pose proof (is_width_pos E WE) as BE.
  pose proof (Z.div_mod fb 4 ltac:(lia)) as D4. pose proof (Z.mod_pos_bound fb 4 ltac:(lia)) as M4'. pose proof (Z.div_mod fb 2 ltac:(lia)) as D2. pose proof (Z.mod_pos_bound fb 2 ltac:(lia)) as M2.
  pose proof (Z.div_mod fa 2 ltac:(lia)) as Da. pose proof (Z.mod_pos_bound fa 2 ltac:(lia)) as Ma.
  destruct (hidden F fa WF Ha) as [A1 A2]. destruct (hidden F fb WF Hb) as [B1 B2].
  assert (EF : 2 ^ F = 2 * 2 ^ (F - 1)) by (replace F with ((F - 1) + 1) at 1 by lia; apply pow2_S; lia).
  assert (EF2 : 2 ^ (F - 1) = 2 * 2 ^ (F - 2)) by (replace (F - 1) with ((F - 2) + 1) by lia; apply pow2_S; lia).
  pow_pos 2 (F - 2).
  split.
  - set (g := 4 * (fb / 4) + 4).
    unfold u_div. cbn [u_isNaN utype_eqb utyp orb uneg uexp ufrac].
    rewrite !pF_shr by (try assumption; unfold pw; lia). cbn [bind]. rewrite A1, B1.
    set (a := 2 ^ (F - 1) + fa / 2) in *. set (b := 2 ^ (F - 1) + fb / 2) in *.
    assert (L1 : (a <? b) = true) by (apply Z.ltb_lt; unfold a, b; lia). rewrite L1.
    assert (HH : b / 2 ^ 1 = a / 2 /\ a = 2 * (a / 2)).
    { change (2 ^ 1) with 2. assert (X : fb / 2 = 2 * (fb / 4) + 1) by lia. unfold a, b. rewrite K, X, EF2.
      replace (2 * 2 ^ (F - 2) + (2 * (fb / 4) + 1)) with (1 + (2 ^ (F - 2) + fb / 4) * 2) by ring. replace (2 * 2 ^ (F - 2) + (2 * (fb / 4) + 1 - 1)) with ((2 ^ (F - 2) + fb / 4) * 2) by ring.
      rewrite Z.div_add, Z.div_mul by lia. change (1 / 2) with 0. lia. }
    destruct HH as [H1 H2].
    assert (E2F : 2 ^ (2 * F) = 2 ^ F * 2 ^ F) by (rewrite <- Z.pow_add_r by lia; f_equal; lia).
    assert (NB : 0 <= a * 2 ^ F < 2 ^ (2 * F)) by (rewrite E2F; unfold a; nia).
    unfold csub. rewrite pE_arith by (try assumption; lia). cbn [bind].
    unfold cadd. rewrite pE_arith by (try assumption; lia). cbn [bind].
    rewrite pF_shr by (try assumption; unfold pw, b; lia). cbn [bind]. rewrite H1.
    assert (HB : 0 < a / 2 < 2 ^ F) by (clear - H2 A2 EF H; unfold a in *; lia).
    rewrite cast_u_small by lia.
    rewrite pN_shl by (try assumption; try lia; unfold a; lia). cbn [bind]. rewrite cast_u_small by exact NB.
    unfold extradiv, cdiv. destruct (Z.eqb_spec (a / 2) 0); [lia|].
    assert (Q0 : Z.quot (a * 2 ^ F) (a / 2) = 2 * 2 ^ F).
    { rewrite Z.quot_div_nonneg by lia. rewrite H2 at 1. replace (2 * (a / 2) * 2 ^ F) with (2 * 2 ^ F * (a / 2)) by ring. apply Z.div_mul. lia. }
    rewrite Q0. assert (Q1 : 0 <= 2 * 2 ^ F < 2 ^ (2 * F)) by (rewrite E2F; nia).
    rewrite pN_arith by (try assumption). cbn [bind]. rewrite cast_u_small by assumption.
    unfold u_mk. rewrite cast_s_small by lia. rewrite cast_u. replace (2 * 2 ^ F mod 2 ^ F) with 0 by (symmetry; apply Z.mod_mul; lia).
    replace (ea - eb + -1) with (ea - eb - 1) by lia. reflexivity.
  - unfold Qdiv. rewrite Qabs_Qmult, Qabs_Qinv, !uvalue_abs by (pow_pos 2 F; lia).
    pose proof (uabs_pos F ea fa ltac:(lia) ltac:(lia)) as PA. pose proof (uabs_pos F eb fb ltac:(lia) ltac:(lia)) as PB.
    assert (T : (2 * uabs F (ea - eb - 1) 0 == pow2 (ea - eb))%Q).
    { unfold uabs. rewrite Z.add_0_r, <- (Z.mul_1_l (2 ^ F)), dy_pow by lia. unfold dy. replace (ea - eb - 1 - F + F) with (ea - eb - 1) by lia. assert (T : (pow2 (ea - eb) == 2 * pow2 (ea - eb - 1))%Q) by (replace (ea - eb) with (1 + (ea - eb - 1)) at 1 by lia; rewrite pow2_plus; reflexivity). rewrite T. change (inject_Z 1) with 1%Q. ring. }
    rewrite T.
    assert (Q2 : (pow2 (2 - F) == 4 * pow2 (- F))%Q) by (replace (2 - F) with (2 + - F) by lia; rewrite pow2_plus; reflexivity).
    (* A = (2^F+fa) 2^(ea-F), B = (2^F+fb) 2^(eb-F), fa < fb <= fa+3 *)
    assert (X : (uabs F ea fa * / uabs F eb fb == inject_Z (2 ^ F + fa) / inject_Z (2 ^ F + fb) * pow2 (ea - eb))%Q).
    { unfold uabs, dy. assert (Y : (0 < inject_Z (2 ^ F + fb))%Q) by (apply (inj_lt 0); pow_pos 2 F; lia). replace (ea - F) with (ea - eb + (eb - F)) by lia. rewrite pow2_plus.
      pose proof (pow2_pos (eb - F)). field. split; lra. }
    rewrite X. assert (Y1 : (0 < inject_Z (2 ^ F + fb))%Q) by (apply (inj_lt 0); pow_pos 2 F; lia).
    assert (Y2 : (inject_Z (2 ^ F + fb) <= inject_Z (2 ^ F + fa) + 3)%Q).
    { change 3%Q with (inject_Z 3). rewrite <- inject_Z_plus. rewrite <- Zle_Qle. lia. }
    assert (Y3 : (inject_Z (2 ^ F + fa) <= inject_Z (2 ^ F + fb))%Q) by (rewrite <- Zle_Qle; lia).
    assert (Y4 : (/ pow2 (- F) <= inject_Z (2 ^ F + fa))%Q).
    { rewrite <- pow2_opp. replace (- - F) with F by lia. rewrite pow2_Z by lia. rewrite <- Zle_Qle. lia. }
    pose proof (pow2_pos (- F)) as P. assert (Le : (pow2 (- F) <= 1 # 256)%Q) by (change (1 # 256) with (pow2 (-8)); apply pow2_le; lia).
    assert (Y5 : (1 <= pow2 (- F) * inject_Z (2 ^ F + fa))%Q).
    { assert (Z1 : (pow2 (- F) * / pow2 (- F) == 1)%Q) by (apply Qmult_inv_r; lra). rewrite <- Z1. apply Qmult_le_l; assumption. }
    rewrite Q2. pose proof (pow2_pos (ea - eb)) as PE. set (A := inject_Z (2 ^ F + fa)) in *. set (B := inject_Z (2 ^ F + fb)) in *. set (u := pow2 (- F)) in *. set (p := pow2 (ea - eb)) in *.
    assert (R1 : (A / B <= 1)%Q) by (apply Qle_shift_div_r; lra).
    assert (R2 : (1 - 3 * u <= A / B)%Q) by (apply Qle_shift_div_l; [assumption|]; clearbody A B u p; clear - Y1 Y2 Y3 Y5 P; nra).
    set (t := (A / B)%Q) in *. clearbody A B u p t. clear - P PE R1 R2 Le.
    split.
    + assert (H : ((1 - 4 * u) * t <= 1)%Q) by nra. assert (EX : ((1 - 4 * u) * (t * p) == (1 - 4 * u) * t * p)%Q) by ring. rewrite EX. nra.
    + assert (H : (1 <= (1 + 4 * u) * t)%Q).
      { assert ((1 + 4 * u) * (1 - 3 * u) <= (1 + 4 * u) * t)%Q by nra. assert ((1 + 4 * u) * (1 - 3 * u) == 1 + u * (1 - 12 * u))%Q by ring. assert (0 <= u * (1 - 12 * u))%Q by nra. lra. }
      assert (EX : ((1 + 4 * u) * (t * p) == (1 + 4 * u) * t * p)%Q) by ring. rewrite EX. nra.
Qed.

(** The inverse is one divided by the number. *)
Lemma inv_is_div F E na ea fa : is_width F -> is_width E -> 0 <= fa < 2 ^ F -> - 2 ^ (E - 1) <= - ea - 1 -> - ea < 2 ^ (E - 1) ->
  u_inv F E (U Regular na ea fa) = u_div F E (U Regular false 0 0) (U Regular na ea fa).
Proof.
  intros WF WE Ba E1 E2. pose proof (is_width_pos F WF) as BF. pose proof (is_width_pos E WE) as BE.
  destruct (hidden F fa WF Ba) as [A1 A2]. destruct (hidden F 0 WF ltac:(pow_pos 2 F; lia)) as [B1 _].
  assert (EF : 2 ^ F = 2 * 2 ^ (F - 1)) by (replace F with ((F - 1) + 1) at 1 by lia; apply pow2_S; lia).
  unfold u_inv, u_div. cbn [u_isNaN utype_eqb utyp orb uneg uexp ufrac]. rewrite xorb_false_l.
  rewrite !pF_shr by (try assumption; unfold pw; lia). cbn [bind]. rewrite A1, B1. change (0 / 2) with 0. rewrite Z.add_0_r.
  unfold FT_leftmost_bit. unfold cneg, csub. rewrite !pE_arith by (try assumption; lia). cbn [bind].
  set (lt := 2 ^ (F - 1) <? 2 ^ (F - 1) + fa / 2).
  destruct (Z.eqb_spec fa 0) as [->|NZ].
  - change (0 / 2) with 0 in *. assert (L : lt = false) by (unfold lt; apply Z.ltb_ge; lia). rewrite L. rewrite Z.add_0_r.
    unfold cadd. rewrite pE_arith by (try assumption; lia). cbn [bind].
    pow_pos 2 (F - 1). assert (E2F : 2 ^ (2 * F) = 2 ^ F * 2 ^ F) by (rewrite <- Z.pow_add_r by lia; f_equal; lia).
    assert (NB : 0 <= 2 ^ (F - 1) * 2 ^ F < 2 ^ (2 * F)) by (rewrite E2F; nia).
    rewrite pN_shl by (try assumption; lia). cbn [bind]. rewrite cast_u_small by exact NB.
    unfold extradiv, cdiv. destruct (Z.eqb_spec (2 ^ (F - 1)) 0); [lia|].
    rewrite Z.quot_div_nonneg by lia. rewrite (Z.mul_comm (2 ^ (F - 1))), Z.div_mul by lia.
    rewrite pN_arith by (try assumption; rewrite E2F; nia). cbn [bind]. rewrite cast_u_small by (rewrite E2F; nia).
    unfold u_mk. rewrite !cast_u, Z.mod_same, Z.mod_0_l by lia. replace (0 - ea + 0) with (- ea) by lia. reflexivity.
  - replace (0 - ea) with (- ea) by lia. destruct lt.
    + rewrite pE_arith by (try assumption; lia). unfold cadd. rewrite pE_arith by (try assumption; lia). cbn [bind]. replace (- ea + -1) with (- ea - 1) by lia. reflexivity.
    + unfold cadd. rewrite pE_arith by (try assumption; lia). cbn [bind]. rewrite Z.add_0_r. reflexivity.
Qed.
