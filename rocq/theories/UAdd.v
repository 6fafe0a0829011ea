(** Addition of full unpacked values. *)
From Coq Require Import ZArith QArith Lia Lqa Bool List.
From Verif Require Import Res CInt Bits Traits Unpacked Cfg Spec QPow Core Arith UOps.
Open Scope Z_scope.

Lemma u_normalized_spec F E n e fr : is_width F -> is_width E -> 0 < fr < 2 ^ F ->
  F - Z.log2 fr < pw F ->
  - 2 ^ (E - 1) <= e - (F - 1 - Z.log2 fr) < 2 ^ (E - 1) ->
  u_normalized F E (U Regular n e fr) =
    Ok (U Regular n (e - (F - 1 - Z.log2 fr)) (fr * 2 ^ (F - Z.log2 fr) - 2 ^ F)) /\
  0 <= fr * 2 ^ (F - Z.log2 fr) - 2 ^ F < 2 ^ F /\ 0 <= Z.log2 fr < F.
Proof.
  intros WF WE B K X. pose proof (is_width_pos F WF) as BF. pose proof (is_width_pos E WE) as BE.
  pose proof (Z.log2_spec fr ltac:(lia)) as LS. pose proof (Z.log2_nonneg fr) as LN.
  assert (LF : Z.log2 fr < F) by (apply Z.log2_lt_pow2; lia).
  set (l := Z.log2 fr) in *.
  pow_pos 2 (F - l). pow_pos 2 l.
  assert (EL : 2 ^ l * 2 ^ (F - l) = 2 ^ F) by (rewrite <- Z.pow_add_r by lia; f_equal; lia).
  replace (Z.succ l) with (l + 1) in LS by lia. rewrite pow2_S in LS by lia.
  assert (R : 2 ^ F <= fr * 2 ^ (F - l) < 2 * 2 ^ F) by (rewrite <- EL; nia).
  split; [|lia].
  unfold u_normalized. cbn [ufrac uexp uneg]. destruct (Z.eqb_spec fr 0); [lia|].
  rewrite clz_spec by assumption. cbn [bind]. fold l.
  unfold csub. rewrite pE_arith by assumption. cbn [bind].
  replace (F - 1 - l + 1) with (F - l) by lia.
  destruct (cshl_u F fr (F - l)) as [r [E1 E2]]; try assumption; try lia.
  unfold pF. rewrite E1. cbn [bind]. unfold u_mk. rewrite E2.
  rewrite cast_s_small by lia. f_equal. f_equal.
  symmetry. apply (Z.mod_unique _ _ 1); lia.
Qed.

(** u_add in closed form. *)
Definition sig2 (F f : Z) : Z := 2 ^ (F - 2) + f / 4.

Lemma sig2_bounds F f : is_width F -> 0 <= f < 2 ^ F -> 2 ^ (F - 2) <= sig2 F f < 2 * 2 ^ (F - 2).
Proof.
  intros W H. pose proof (is_width_pos F W). unfold sig2.
  assert (2 ^ F = 4 * 2 ^ (F - 2)).
  { change 4 with (2 ^ 2). rewrite <- Z.pow_add_r by lia. f_equal. lia. }
  assert (0 <= f / 4 < 2 ^ (F - 2)); [|lia].
  split; [apply Z.div_pos; lia|apply Z.div_lt_upper_bound; lia].
Qed.

Lemma sig2_cor F f : is_width F -> 0 <= f < 2 ^ F ->
  cast (uint F) (cor (2 ^ (F - 1) / 2 ^ 1) (f / 2 ^ 2)) = sig2 F f.
Proof.
  intros W H. pose proof (is_width_pos F W). pose proof (sig2_bounds F f W H) as B. unfold sig2 in *.
  assert (2 ^ F = 4 * 2 ^ (F - 2)).
  { change 4 with (2 ^ 2). rewrite <- Z.pow_add_r by lia. f_equal. lia. }
  rewrite <- Z.pow_sub_r by lia. replace (F - 1 - 1) with (F - 2) by lia. change (2 ^ 2) with 4.
  unfold cor. rewrite <- (Z.mul_1_l (2 ^ (F - 2))), Z.lor_comm.
  rewrite lor_add by lia. rewrite cast_u_small by lia. lia.
Qed.

Definition addfrac (na nb : bool) (A B : Z) : Z :=
  if Bool.eqb na nb then A + B else Z.abs (A - B).
Definition addneg (na nb : bool) (A B : Z) : bool :=
  if Bool.eqb na nb then na else if A >? B then na else nb.

Lemma u_add_eq F E na nb ea eb fa fb : is_width F -> is_width E ->
  0 <= fa < 2 ^ F -> 0 <= fb < 2 ^ F ->
  - 2 ^ (E - 1) <= ea - eb < 2 ^ (E - 1) -> - 2 ^ (E - 1) <= eb - ea < 2 ^ (E - 1) ->
  - 2 ^ (E - 1) <= Z.max ea eb + 1 < 2 ^ (E - 1) ->
  Z.abs (ea - eb) < pw F ->
  let M := Z.max ea eb in
  let A := sig2 F fa / 2 ^ (M - ea) in
  let B := sig2 F fb / 2 ^ (M - eb) in
  u_add F E (U Regular na ea fa) (U Regular nb eb fb) =
    u_normalized F E (U Regular (addneg na nb A B) (M + 1) (addfrac na nb A B)).
Proof.
  intros WF WE Ha Hb D1 D2 D3 DP. pose proof (is_width_pos F WF) as BF. pose proof (is_width_pos E WE) as BE.
  cbv zeta. set (M := Z.max ea eb).
  unfold u_add. cbn [u_isNaN utype_eqb utyp orb uneg uexp ufrac].
  unfold csub at 1. rewrite pE_arith by assumption. cbn [bind].
  assert (EM : (if ea - eb <? 0 then eb else ea) = M) by (unfold M; destruct (Z.ltb_spec (ea - eb) 0); lia).
  rewrite EM. unfold cadd at 1. rewrite pE_arith by assumption. cbn [bind].
  rewrite cast_s_small by lia.
  unfold FT_leftmost_bit.
  rewrite !pF_shr by (try assumption; unfold pw; lia). cbn [bind].
  rewrite !sig2_cor by assumption.
  pose proof (sig2_bounds F fa WF Ha) as SA. pose proof (sig2_bounds F fb WF Hb) as SB.
  set (sa := sig2 F fa) in *. set (sb := sig2 F fb) in *.
  assert (E4 : 2 ^ F = 4 * 2 ^ (F - 2)).
  { change 4 with (2 ^ 2). rewrite <- Z.pow_add_r by lia. f_equal. lia. }
  assert (DB : forall s n, 0 <= s -> 0 <= n -> 0 <= s / 2 ^ n <= s).
  { intros s n H0 H1. pow_pos 2 n. split; [apply Z.div_pos; lia|apply Z.div_le_upper_bound; nia]. }
  pose proof (DB sa (M - ea) ltac:(lia) ltac:(lia)) as BA.
  pose proof (DB sb (M - eb) ltac:(lia) ltac:(lia)) as BB.
  set (A := sa / 2 ^ (M - ea)) in *. set (B := sb / 2 ^ (M - eb)) in *.
  assert (XA : (if ea - eb <? 0 then
       let! nd := cneg (pE E) (ea - eb) in
       let! r := cshr (pF F) sa nd in Ok (cast (uint F) r) else Ok sa) = Ok A).
  { destruct (Z.ltb_spec (ea - eb) 0).
    - unfold cneg. rewrite pE_arith by (try assumption; lia). cbn [bind].
      rewrite pF_shr by (try assumption; lia). cbn [bind].
      replace (- (ea - eb)) with (M - ea) by lia. fold A. rewrite cast_u_small by lia. reflexivity.
    - unfold A. replace (M - ea) with 0 by lia. rewrite Z.div_1_r. reflexivity. }
  rewrite XA. cbn [bind].
  assert (XB : (if ea - eb <? 0 then Ok sb
      else let! r := cshr (pF F) sb (ea - eb) in Ok (cast (uint F) r)) = Ok B).
  { destruct (Z.ltb_spec (ea - eb) 0).
    - unfold B. replace (M - eb) with 0 by lia. rewrite Z.div_1_r. reflexivity.
    - rewrite pF_shr by (try assumption; lia). cbn [bind].
      replace (ea - eb) with (M - eb) by lia. fold B. rewrite cast_u_small by lia. reflexivity. }
  rewrite XB. cbn [bind]. clear XA XB EM.
  unfold addneg, addfrac. destruct (Bool.eqb na nb) eqn:EQ; cbv iota.
  - change (0 =? 0) with true. change (0 >=? 0) with true. cbv iota.
    unfold cadd. rewrite pF_arith by (try assumption; lia). cbn [bind].
    unfold u_mk. rewrite cast_s_small by lia. rewrite !cast_u_small by (rewrite ?cast_u_small; lia). reflexivity.
  - rewrite Z.gtb_ltb. destruct (Z.ltb_spec B A).
    + change (1 =? 0) with false. change (1 >=? 0) with true. change (1 >? 0) with true. cbv iota.
      unfold csub. rewrite pF_arith by (try assumption; lia). cbn [bind].
      unfold u_mk. rewrite cast_s_small by lia. rewrite !cast_u_small by (rewrite ?cast_u_small; lia).
      replace (Z.abs (A - B)) with (A - B) by lia. reflexivity.
    + change (-1 =? 0) with false. change (-1 >=? 0) with false. change (-1 >? 0) with false. cbv iota.
      unfold csub. rewrite pF_arith by (try assumption; lia). cbn [bind].
      unfold u_mk. rewrite cast_s_small by lia. rewrite !cast_u_small by (rewrite ?cast_u_small; lia).
      replace (Z.abs (A - B)) with (B - A) by lia. reflexivity.
Qed.

Lemma u_add_ub F E na nb ea eb fa fb : is_width F -> is_width E ->
  0 <= fa < 2 ^ F -> 0 <= fb < 2 ^ F ->
  - 2 ^ (E - 1) <= ea - eb < 2 ^ (E - 1) -> - 2 ^ (E - 1) <= eb - ea < 2 ^ (E - 1) ->
  - 2 ^ (E - 1) <= Z.max ea eb + 1 < 2 ^ (E - 1) ->
  pw F <= Z.abs (ea - eb) ->
  u_add F E (U Regular na ea fa) (U Regular nb eb fb) = UB ShiftCount.
Proof.
  intros WF WE Ha Hb D1 D2 D3 DP. pose proof (is_width_pos F WF) as BF.
  unfold u_add. cbn [u_isNaN utype_eqb utyp orb uneg uexp ufrac].
  unfold csub at 1. rewrite pE_arith by assumption. cbn [bind].
  unfold cadd at 1. rewrite pE_arith by (try assumption; destruct (Z.ltb_spec (ea - eb) 0); lia). cbn [bind].
  unfold FT_leftmost_bit.
  rewrite !pF_shr by (try assumption; unfold pw; lia). cbn [bind].
  destruct (Z.ltb_spec (ea - eb) 0).
  - unfold cneg. rewrite pE_arith by (try assumption; lia). cbn [bind].
    rewrite cshr_ub; [reflexivity|]. unfold pF. rewrite iw_prom_uint by assumption. lia.
  - cbn [bind]. rewrite cshr_ub; [reflexivity|]. unfold pF. rewrite iw_prom_uint by assumption. lia.
Qed.

Lemma uabs_sig2 F e f : is_width F -> f mod 4 = 0 -> (uabs F e f == dy (sig2 F f) (e + 2 - F))%Q.
Proof.
  intros W M. pose proof (is_width_pos F W). unfold uabs, sig2.
  pose proof (Z.div_mod f 4 ltac:(lia)) as D.
  assert (E4 : 2 ^ F = 4 * 2 ^ (F - 2)).
  { change 4 with (2 ^ 2). rewrite <- Z.pow_add_r by lia. f_equal. lia. }
  replace (2 ^ F + f) with ((2 ^ (F - 2) + f / 4) * 2 ^ 2) by lia.
  rewrite dy_pow by lia. replace (e - F + 2) with (e + 2 - F) by lia. reflexivity.
Qed.

(** Value of a normalised result. *)
Lemma norm_val F e fr : is_width F -> 0 < fr < 2 ^ F ->
  (uabs F (e - (F - 1 - Z.log2 fr)) (fr * 2 ^ (F - Z.log2 fr) - 2 ^ F) == dy fr (e + 1 - F))%Q.
Proof.
  intros W B. assert (LF : Z.log2 fr < F) by (apply Z.log2_lt_pow2; lia).
  unfold uabs. replace (2 ^ F + (fr * 2 ^ (F - Z.log2 fr) - 2 ^ F)) with (fr * 2 ^ (F - Z.log2 fr)) by lia.
  rewrite dy_pow by lia.
  replace (e - (F - 1 - Z.log2 fr) - F + (F - Z.log2 fr)) with (e + 1 - F) by lia. reflexivity.
Qed.

Section SameSign.
Variables (F E : Z) (n : bool) (ea eb fa fb : Z).
Hypothesis (WF : is_width F) (WE : is_width E).
Hypothesis (Ha : 0 <= fa < 2 ^ F) (Hb : 0 <= fb < 2 ^ F).
Hypothesis (Ea : fa mod 4 = 0) (Eb : fb mod 4 = 0).
Hypothesis (D1 : - 2 ^ (E - 1) <= ea - eb < 2 ^ (E - 1)) (D2 : - 2 ^ (E - 1) <= eb - ea < 2 ^ (E - 1)).
Hypothesis (D3 : Z.max ea eb + 1 < 2 ^ (E - 1)) (D4 : - 2 ^ (E - 1) <= Z.max ea eb).
Hypothesis (DP : Z.abs (ea - eb) < pw F).

Lemma u_add_same : exists e f j,
  u_add F E (U Regular n ea fa) (U Regular n eb fb) = Ok (U Regular n e f) /\
  1 <= j <= 2 /\ Z.max ea eb <= e <= Z.max ea eb + 1 /\
  cell F e f j (uabs F ea fa + uabs F eb fb).
Proof using All.
  pose proof (is_width_pos F WF) as BF. pose proof (is_width_pos E WE) as BE.
  rewrite u_add_eq by (assumption || lia).
  set (M := Z.max ea eb) in *.
  pose proof (sig2_bounds F fa WF Ha) as SA. pose proof (sig2_bounds F fb WF Hb) as SB.
  set (sa := sig2 F fa) in *. set (sb := sig2 F fb) in *.
  assert (E4 : 2 ^ F = 4 * 2 ^ (F - 2)).
  { change 4 with (2 ^ 2). rewrite <- Z.pow_add_r by lia. f_equal. lia. }
  set (m := Z.min ea eb). set (D := M - m).
  set (A := sa / 2 ^ (M - ea)). set (B := sb / 2 ^ (M - eb)).
  set (T := 2 ^ (F - 2)) in *.
  unfold addneg, addfrac. rewrite Bool.eqb_reflx.
  (* bounds of the aligned sum *)
  assert (K : (A + B) * 2 ^ D <= sa * 2 ^ (ea - m) + sb * 2 ^ (eb - m) < (A + B + 1) * 2 ^ D
              /\ T <= A + B < 4 * T).
  { pow_pos 2 D. destruct (Z_le_gt_dec eb ea) as [L|L].
    - assert (EA : A = sa) by (unfold A; replace (M - ea) with 0 by lia; apply Z.div_1_r).
      assert (EM : M - eb = D) by lia. unfold B. rewrite EM, EA.
      replace (ea - m) with D by lia. replace (eb - m) with 0 by lia. change (2 ^ 0) with 1.
      pose proof (Z.div_mod sb (2 ^ D) ltac:(lia)) as DM. pose proof (Z.mod_pos_bound sb (2 ^ D) ltac:(lia)).
      assert (0 <= sb / 2 ^ D <= sb) by (split; [apply Z.div_pos; lia|apply Z.div_le_upper_bound; nia]).
      set (q := sb / 2 ^ D) in *. clearbody q. clear - DM H0 H1 SA SB H. split; [nia|lia].
    - assert (EB : B = sb) by (unfold B; replace (M - eb) with 0 by lia; apply Z.div_1_r).
      assert (EM : M - ea = D) by lia. unfold A. rewrite EM, EB.
      replace (eb - m) with D by lia. replace (ea - m) with 0 by lia. change (2 ^ 0) with 1.
      pose proof (Z.div_mod sa (2 ^ D) ltac:(lia)) as DM. pose proof (Z.mod_pos_bound sa (2 ^ D) ltac:(lia)).
      assert (0 <= sa / 2 ^ D <= sa) by (split; [apply Z.div_pos; lia|apply Z.div_le_upper_bound; nia]).
      set (q := sa / 2 ^ D) in *. clearbody q. clear - DM H0 H1 SA SB H. split; [nia|lia]. }
  destruct K as [K1 K2]. set (fr := A + B) in *. clearbody fr.
  assert (T0 : 0 < T) by (unfold T; apply Z.pow_pos_nonneg; lia).
  assert (L1 : F - 2 <= Z.log2 fr) by (apply Z.log2_le_pow2; [lia|exact (proj1 K2)]).
  assert (L2 : Z.log2 fr < F) by (apply Z.log2_lt_pow2; lia).
  destruct (u_normalized_spec F E n (M + 1) fr WF WE ltac:(lia) ltac:(unfold pw; lia) ltac:(lia)) as [N1 [N2 N3]].
  rewrite N1. eexists _, _, (F - Z.log2 fr). split; [reflexivity|].
  split; [lia|]. split; [lia|].
  pose proof (norm_val F (M + 1) fr WF ltac:(lia)) as NV.
  split; [exact N2|]. split; [lia|]. split.
  - assert (EL : 2 ^ Z.log2 fr * 2 ^ (F - Z.log2 fr) = 2 ^ F) by (rewrite <- Z.pow_add_r by lia; f_equal; lia).
    rewrite <- EL. rewrite <- Z.mul_sub_distr_r. apply Z.mod_mul. pow_pos 2 (F - Z.log2 fr). lia.
  - rewrite NV.
    assert (X : (uabs F ea fa + uabs F eb fb == dy (sa * 2 ^ (ea - m) + sb * 2 ^ (eb - m)) (m + 2 - F))%Q).
    { rewrite !uabs_sig2 by assumption. fold sa sb.
      rewrite (dy_align sa _ (m + 2 - F)), (dy_align sb _ (m + 2 - F)) by lia. rewrite dy_add.
      replace (ea + 2 - F - (m + 2 - F)) with (ea - m) by lia.
      replace (eb + 2 - F - (m + 2 - F)) with (eb - m) by lia. reflexivity. }
    rewrite X.
    rewrite (dy_align fr _ (m + 2 - F)) by lia.
    replace (M + 1 + 1 - F - (m + 2 - F)) with D by lia.
    split; [apply dy_le; lia|].
    replace (2 ^ F + (fr * 2 ^ (F - Z.log2 fr) - 2 ^ F) + 2 ^ (F - Z.log2 fr))
      with ((fr + 1) * 2 ^ (F - Z.log2 fr)) by ring.
    rewrite dy_pow by lia.
    replace (M + 1 - (F - 1 - Z.log2 fr) - F + (F - Z.log2 fr)) with (M + 2 - F) by lia.
    rewrite (dy_align (fr + 1) _ (m + 2 - F)) by lia.
    replace (M + 2 - F - (m + 2 - F)) with D by lia. apply dy_lt. lia.
Qed.
End SameSign.

(** [x] lies in the cell of width 2^J units ending at (e,f), in logarithmic coordinates. *)
Definition cellb (F e f J : Z) (x : Q) : Prop :=
  0 <= f < 2 ^ F /\ 0 <= J <= 3 /\ (e * 2 ^ F + f) mod 2 ^ J = 0 /\
  (lval F (e * 2 ^ F + f - 2 ^ J) < x)%Q /\ (x <= lval F (e * 2 ^ F + f))%Q.

Lemma cellb_exact F e f x : 0 <= F -> 0 <= f < 2 ^ F -> (x == uabs F e f)%Q -> cellb F e f 0 x.
Proof.
  intros HF Hf E. split; [assumption|]. split; [lia|]. split; [apply Z.mod_1_r|].
  unfold uabs in E. rewrite E, dy_lval by assumption. change (2 ^ 0) with 1.
  split; [apply lval_lt; lia|apply Qle_refl].
Qed.

(** Integer core of the subtraction: [p] the aligned larger operand, [r] the other one. *)
Lemma diff_core F e p r D : is_width F -> 2 <= D ->
  2 ^ (F - 2) <= p < 2 * 2 ^ (F - 2) -> 2 ^ (F - 2) <= r < 2 * 2 ^ (F - 2) ->
  let fr := p - r / 2 ^ D in
  0 < fr < 2 ^ F /\ F - 3 <= Z.log2 fr < F - 1 /\
  forall x, (x == dy (p * 2 ^ D - r) (e + 1 - F - D))%Q ->
  exists J, cellb F (e - (F - 1 - Z.log2 fr)) (fr * 2 ^ (F - Z.log2 fr) - 2 ^ F) J x.
Proof.
  intros WF HD Hp Hr. cbv zeta. pose proof (is_width_pos F WF) as BF.
  assert (E4 : 2 ^ F = 4 * 2 ^ (F - 2)).
  { change 4 with (2 ^ 2). rewrite <- Z.pow_add_r by lia. f_equal. lia. }
  assert (E8 : 2 ^ (F - 2) = 2 * 2 ^ (F - 3)) by (replace (F - 2) with ((F - 3) + 1) by lia; apply pow2_S; lia).
  pow_pos 2 (F - 3). pow_pos 2 D.
  assert (P4 : 4 <= 2 ^ D) by (change 4 with (2 ^ 2); apply pow2_mono; lia).
  set (q := r / 2 ^ D). assert (Q : 0 <= q < 2 ^ (F - 3)).
  { unfold q. split; [apply Z.div_pos; lia|apply Z.div_lt_upper_bound; nia]. }
  pose proof (Z.div_mod r (2 ^ D) ltac:(lia)) as DM. fold q in DM.
  pose proof (Z.mod_pos_bound r (2 ^ D) ltac:(lia)) as MB.
  set (fr := p - q). assert (Bf : 2 ^ (F - 3) < fr < 2 ^ (F - 1)).
  { replace (F - 1) with ((F - 2) + 1) by lia. rewrite pow2_S by lia. unfold fr. lia. }
  assert (E1 : 2 ^ F = 2 * 2 ^ (F - 1)) by (replace F with ((F - 1) + 1) at 1 by lia; apply pow2_S; lia).
  assert (L1 : F - 3 <= Z.log2 fr) by (apply Z.log2_le_pow2; lia).
  assert (L2 : Z.log2 fr < F - 1) by (apply Z.log2_lt_pow2; lia).
  split; [lia|]. split; [lia|]. intros x X.
  set (l := Z.log2 fr) in *.
  pose proof (Z.log2_spec fr ltac:(lia)) as LS. fold l in LS.
  replace (Z.succ l) with (l + 1) in LS by lia. rewrite pow2_S in LS by lia.
  assert (EL : 2 ^ l * 2 ^ (F - l) = 2 ^ F) by (rewrite <- Z.pow_add_r by lia; f_equal; lia).
  pow_pos 2 (F - l). pow_pos 2 l.
  assert (R : 2 ^ F <= fr * 2 ^ (F - l) < 2 * 2 ^ F) by (rewrite <- EL; nia).
  set (f := fr * 2 ^ (F - l) - 2 ^ F) in *.
  set (e' := e - (F - 1 - l)).
  (* bounds on x in significand units *)
  assert (XB : (dy ((fr - 1) * 2 ^ (F - l)) (e' - F) < x)%Q /\ (x <= dy (fr * 2 ^ (F - l)) (e' - F))%Q).
  { rewrite X, !dy_pow by lia. unfold e'.
    replace (e - (F - 1 - l) - F + (F - l)) with (e + 1 - F) by lia.
    rewrite (dy_align (fr - 1) _ (e + 1 - F - D)), (dy_align fr _ (e + 1 - F - D)) by lia.
    replace (e + 1 - F - (e + 1 - F - D)) with D by lia.
    unfold fr. split; [apply dy_lt|apply dy_le]; nia. }
  destruct XB as [XL XU].
  assert (YU : lval F (e' * 2 ^ F + f) = dy (fr * 2 ^ (F - l)) (e' - F)).
  { rewrite lval_ef by lia. f_equal. lia. }
  destruct (Z.eq_dec f 0) as [F0|F0].
  - (* power of two *)
    exists 3. fold f e'. split; [lia|]. split; [lia|].
    assert (FR : fr = 2 ^ l) by (apply (Z.mul_reg_r _ _ (2 ^ (F - l))); lia).
    assert (LL : l = F - 2).
    { destruct (Z.eq_dec l (F - 3)) as [X3|X3]; [rewrite X3 in FR; lia|lia]. }
    split.
    + rewrite F0, Z.add_0_r. replace F with ((F - 3) + 3) at 1 by lia.
      rewrite Z.pow_add_r, Z.mul_assoc by lia. apply Z.mod_mul. lia.
    + split; [|rewrite YU; assumption].
      rewrite F0, Z.add_0_r. change (2 ^ 3) with 8.
      replace (e' * 2 ^ F - 8) with ((e' - 1) * 2 ^ F + (2 ^ F - 8)) by ring.
      assert (8 <= 2 ^ F) by (change 8 with (2 ^ 3); apply pow2_mono; lia).
      rewrite lval_ef by lia.
      replace (2 ^ F + (2 ^ F - 8)) with ((fr - 1) * 2 ^ (F - l) * 2 ^ 1).
      * rewrite dy_pow by lia. replace (e' - 1 - F + 1) with (e' - F) by lia. assumption.
      * rewrite Z.mul_sub_distr_r. replace (F - l) with 2 in * by lia. change (2 ^ 2) with 4 in *.
        change (2 ^ 1) with 2. lia.
  - exists (F - l). fold f e'. split; [lia|]. split; [lia|].
    assert (FM : f = (fr - 2 ^ l) * 2 ^ (F - l)) by (unfold f; rewrite <- EL; ring).
    assert (FG : 2 ^ (F - l) <= f).
    { assert (0 < fr - 2 ^ l).
      { destruct (Z.eq_dec (fr - 2 ^ l) 0) as [Z0|Z0]; [rewrite Z0 in FM; lia|lia]. }
      rewrite FM. set (u := fr - 2 ^ l) in *. set (w := 2 ^ (F - l)) in *. clearbody u w. clear - H2 H0 H1 H3. nia. }
    split.
    + rewrite FM, <- EL. replace (e' * (2 ^ l * 2 ^ (F - l)) + (fr - 2 ^ l) * 2 ^ (F - l))
        with ((e' * 2 ^ l + (fr - 2 ^ l)) * 2 ^ (F - l)) by ring. apply Z.mod_mul. lia.
    + split; [|rewrite YU; assumption].
      replace (e' * 2 ^ F + f - 2 ^ (F - l)) with (e' * 2 ^ F + (f - 2 ^ (F - l))) by ring.
      rewrite lval_ef by lia. replace (2 ^ F + (f - 2 ^ (F - l))) with ((fr - 1) * 2 ^ (F - l))
        by (unfold f; ring). assumption.
Qed.

Lemma mod_dvd a j : 0 <= j -> a mod 2 ^ j = 0 -> exists b, a = b * 2 ^ j.
Proof. intros J M. pow_pos 2 j. exists (a / 2 ^ j). pose proof (Z.div_mod a (2 ^ j) ltac:(lia)). lia. Qed.

Lemma sig2_even F' f j : is_width F' -> 2 <= j <= 4 -> f mod 2 ^ j = 0 -> exists b, sig2 F' f = b * 2 ^ (j - 2).
Proof.
  intros W J M. pose proof (is_width_pos F' W). destruct (mod_dvd f j ltac:(lia) M) as [b ->].
  exists (2 ^ (F' - j) + b). unfold sig2.
  replace (b * 2 ^ j / 4) with (b * 2 ^ (j - 2)).
  - rewrite Z.mul_add_distr_r, <- Z.pow_add_r by lia. replace (F' - j + (j - 2)) with (F' - 2) by lia. lia.
  - replace j with ((j - 2) + 2) at 2 by lia. rewrite Z.pow_add_r, Z.mul_assoc by lia.
    change (2 ^ 2) with 4. rewrite Z.div_mul; lia.
Qed.

(** Difference of magnitudes: the larger exponent operand has coordinates (ep,fp). *)
Section Diff.
Variables (F E : Z) (n : bool) (ep er fp fr0 : Z).
Hypothesis (WF : is_width F) (WE : is_width E).
Hypothesis (Hp : 0 <= fp < 2 ^ F) (Hr : 0 <= fr0 < 2 ^ F).
Hypothesis (Mp : fp mod 8 = 0) (Mr : fr0 mod 8 = 0).
Hypothesis (M16 : F < 32 \/ (fp mod 16 = 0 /\ fr0 mod 16 = 0)).
Hypothesis (L : er <= ep).
Hypothesis (D3 : ep + 1 < 2 ^ (E - 1)) (D4 : - 2 ^ (E - 1) <= ep - F).

Let D := ep - er.
Let p := sig2 F fp.
Let r := sig2 F fr0.


Lemma u_diff : p <> r / 2 ^ D ->
  exists e f J,
    u_normalized F E (U Regular n (ep + 1) (Z.abs (p - r / 2 ^ D))) = Ok (U Regular n e f) /\
    ep - F <= e <= ep /\
    cellb F e f J (if p >? r / 2 ^ D then uabs F ep fp - uabs F er fr0 else uabs F er fr0 - uabs F ep fp).
Proof using All.
  intros NZ. pose proof (is_width_pos F WF) as BF. pose proof (is_width_pos E WE) as BE.
  pose proof (sig2_bounds F fp WF Hp) as SP. pose proof (sig2_bounds F fr0 WF Hr) as SR.
  fold p in SP. fold r in SR.
  assert (E4 : 2 ^ F = 4 * 2 ^ (F - 2)).
  { change 4 with (2 ^ 2). rewrite <- Z.pow_add_r by lia. f_equal. lia. }
  pow_pos 2 (F - 2).
  assert (M4p : fp mod 4 = 0).
  { destruct (mod_dvd fp 3 ltac:(lia) Mp) as [b ->]. replace (b * 2 ^ 3) with (b * 2 * 4) by ring. apply Z.mod_mul. lia. }
  assert (M4r : fr0 mod 4 = 0).
  { destruct (mod_dvd fr0 3 ltac:(lia) Mr) as [b ->]. replace (b * 2 ^ 3) with (b * 2 * 4) by ring. apply Z.mod_mul. lia. }
  assert (XV : (uabs F ep fp - uabs F er fr0 == dy (p * 2 ^ D - r) (ep + 2 - F - D))%Q).
  { rewrite !uabs_sig2 by assumption. fold p r. rewrite (dy_align p _ (er + 2 - F)) by lia.
    replace (ep + 2 - F - (er + 2 - F)) with D by (unfold D; lia).
    replace (ep + 2 - F - D) with (er + 2 - F) by (unfold D; lia).
    unfold Qminus. rewrite dy_opp, dy_add. reflexivity. }
  destruct (Z_le_gt_dec 2 D) as [D2|D2].
  - destruct (diff_core F (ep + 1) p r D WF D2 SP SR) as [C1 [C2 C3]].
    assert (PG : 0 < p - r / 2 ^ D) by lia.
    rewrite Z.abs_eq by lia. rewrite Z.gtb_ltb.
    assert (LT : r / 2 ^ D <? p = true) by (apply Z.ltb_lt; lia). rewrite LT.
    destruct (u_normalized_spec F E n (ep + 1) (p - r / 2 ^ D) WF WE C1 ltac:(unfold pw; lia) ltac:(lia)) as [N1 [N2 N3]].
    destruct (C3 (uabs F ep fp - uabs F er fr0)%Q) as [J CJ].
    { rewrite XV. replace (ep + 1 + 1 - F - D) with (ep + 2 - F - D) by lia. reflexivity. }
    eexists _, _, J. split; [exact N1|]. split; [lia|exact CJ].
  - (* exact difference *)
    assert (RE : r = r / 2 ^ D * 2 ^ D).
    { assert (DD : D = 0 \/ D = 1) by (unfold D in *; lia). destruct DD as [->| ->].
      - change (2 ^ 0) with 1. rewrite Z.div_1_r. lia.
      - destruct (sig2_even F fr0 3 WF ltac:(lia) Mr) as [b B]. fold r in B. change (3 - 2) with 1 in B.
        rewrite B. rewrite Z.div_mul by lia. reflexivity. }
    set (q := r / 2 ^ D) in *.
    assert (HD : 0 <= D) by (unfold D; lia). pow_pos 2 D.
    assert (QB : 0 <= q <= r) by (clear - RE H0 SR H; nia).
    assert (GE2 : F < 32 \/ 2 <= Z.abs (p - q)).
    { destruct M16 as [|[Mp16 Mr16]]; [left; assumption|right].
      destruct (sig2_even F fp 4 WF ltac:(lia) Mp16) as [b1 B1].
      destruct (sig2_even F fr0 4 WF ltac:(lia) Mr16) as [b2 B2].
      fold p in B1. fold r in B2. change (2 ^ (4 - 2)) with 4 in *.
      assert (DD : D = 0 \/ D = 1) by (unfold D in *; lia). destruct DD as [DD|DD]; rewrite DD in RE.
      - change (2 ^ 0) with 1 in RE. lia.
      - change (2 ^ 1) with 2 in RE. lia. }
    set (dd := Z.abs (p - q)) in *.
    assert (DB : 0 < dd < 2 ^ F) by lia.
    pose proof (Z.log2_nonneg dd) as LN.
    assert (L2 : Z.log2 dd < F) by (apply Z.log2_lt_pow2; lia).
    assert (LW : F - Z.log2 dd < pw F).
    { destruct GE2 as [|G2]; [unfold pw; lia|].
      assert (1 <= Z.log2 dd) by (apply Z.log2_le_pow2; lia). unfold pw. lia. }
    destruct (u_normalized_spec F E n (ep + 1) dd WF WE DB LW ltac:(lia)) as [N1 [N2 N3]].
    assert (L3 : Z.log2 dd < F - 1).
    { apply Z.log2_lt_pow2; [lia|]. replace (F - 1) with ((F - 2) + 1) by lia. rewrite pow2_S by lia. lia. }
    eexists _, _, 0. split; [exact N1|]. split; [lia|].
    apply cellb_exact; [lia|assumption|]. rewrite norm_val by assumption.
    replace (ep + 1 + 1 - F) with (ep + 2 - F) by lia.
    assert (V : (dy (p * 2 ^ D - r) (ep + 2 - F - D) == dy (p - q) (ep + 2 - F))%Q).
    { rewrite RE. rewrite <- Z.mul_sub_distr_r. rewrite dy_pow by lia.
      replace (ep + 2 - F - D + D) with (ep + 2 - F) by lia. reflexivity. }
    rewrite Z.gtb_ltb. destruct (Z.ltb_spec q p).
    + rewrite XV, V. unfold dd. rewrite Z.abs_eq by lia. reflexivity.
    + assert (S : (uabs F er fr0 - uabs F ep fp == - (uabs F ep fp - uabs F er fr0))%Q) by ring.
      rewrite S, XV, V, dy_opp. unfold dd. rewrite Z.abs_neq by lia. reflexivity.
Qed.

(** Equal aligned significands only arise from equal magnitudes. *)
Lemma u_diff_zero : p = r / 2 ^ D -> (uabs F ep fp == uabs F er fr0)%Q.
Proof using WF Hp Hr Mp Mr L.
  clear M16 D3 D4 WE E.
  intros Q. pose proof (is_width_pos F WF) as BF.
  pose proof (sig2_bounds F fp WF Hp) as SP. pose proof (sig2_bounds F fr0 WF Hr) as SR.
  fold p in SP. fold r in SR.
  assert (M4p : fp mod 4 = 0).
  { destruct (mod_dvd fp 3 ltac:(lia) Mp) as [b ->]. replace (b * 2 ^ 3) with (b * 2 * 4) by ring. apply Z.mod_mul. lia. }
  assert (M4r : fr0 mod 4 = 0).
  { destruct (mod_dvd fr0 3 ltac:(lia) Mr) as [b ->]. replace (b * 2 ^ 3) with (b * 2 * 4) by ring. apply Z.mod_mul. lia. }
  destruct (Z.eq_dec D 0) as [D0|D0].
  - rewrite D0 in Q. change (2 ^ 0) with 1 in Q. rewrite Z.div_1_r in Q.
    rewrite !uabs_sig2 by assumption. fold p r. rewrite Q. replace er with ep by (unfold D in *; lia). reflexivity.
  - exfalso. assert (P2 : 2 ^ 1 <= 2 ^ D) by (apply pow2_mono; unfold D in *; lia). change (2 ^ 1) with 2 in P2.
    pow_pos 2 (F - 2).
    assert (r / 2 ^ D < 2 ^ (F - 2)) by (apply Z.div_lt_upper_bound; nia). lia.
Qed.
End Diff.

Lemma eqb_xor a b : Bool.eqb a b = false -> b = negb a.
Proof. destruct a, b; cbn; congruence. Qed.

(** Signed value of a regular unpacked number. *)
Definition uval (F : Z) (n : bool) (e f : Z) : Q := if n then Qopp (uabs F e f) else uabs F e f.

Lemma u_add_opp F E na ea eb fa fb : is_width F -> is_width E ->
  0 <= fa < 2 ^ F -> 0 <= fb < 2 ^ F -> fa mod 8 = 0 -> fb mod 8 = 0 ->
  (F < 32 \/ (fa mod 16 = 0 /\ fb mod 16 = 0)) ->
  - 2 ^ (E - 1) <= ea - eb < 2 ^ (E - 1) -> - 2 ^ (E - 1) <= eb - ea < 2 ^ (E - 1) ->
  Z.max ea eb + 1 < 2 ^ (E - 1) -> - 2 ^ (E - 1) <= Z.max ea eb - F ->
  Z.abs (ea - eb) < pw F ->
  (u_add F E (U Regular na ea fa) (U Regular (negb na) eb fb) = Ok (u_special Zero false) /\
   (uabs F ea fa == uabs F eb fb)%Q) \/
  exists n e f J x,
    u_add F E (U Regular na ea fa) (U Regular (negb na) eb fb) = Ok (U Regular n e f) /\
    Z.max ea eb - F <= e <= Z.max ea eb /\
    cellb F e f J x /\ (uval F na ea fa + uval F (negb na) eb fb == if n then - x else x)%Q.
Proof.
  intros WF WE Ha Hb Ma Mb M16 D1 D2 D3 D4 DP.
  rewrite u_add_eq by (assumption || (pose proof (is_width_pos F WF); lia)).
  assert (EN : Bool.eqb na (negb na) = false) by (destruct na; reflexivity).
  unfold addneg, addfrac. rewrite EN.
  destruct (Z_le_gt_dec eb ea) as [L|L].
  - replace (Z.max ea eb) with ea by lia. replace (ea - ea) with 0 by lia.
    change (2 ^ 0) with 1. rewrite Z.div_1_r.
    destruct (Z.eq_dec (sig2 F fa) (sig2 F fb / 2 ^ (ea - eb))) as [Q|Q].
    + left. split; [|apply u_diff_zero; assumption].
      rewrite <- Q, Z.sub_diag. reflexivity.
    + right. set (n := if sig2 F fa >? sig2 F fb / 2 ^ (ea - eb) then na else negb na).
      destruct (u_diff F E n ea eb fa fb) as [e [f [J [N1 [N2 N3]]]]]; try assumption; try lia.
      exists n, e, f, J. eexists. split; [exact N1|]. split; [lia|]. split; [exact N3|].
      unfold n, uval. destruct (sig2 F fa >? sig2 F fb / 2 ^ (ea - eb)), na; cbn [negb]; ring.
  - replace (Z.max ea eb) with eb by lia. replace (eb - eb) with 0 by lia.
    change (2 ^ 0) with 1. rewrite Z.div_1_r.
    destruct (Z.eq_dec (sig2 F fb) (sig2 F fa / 2 ^ (eb - ea))) as [Q|Q].
    + left. split; [|symmetry; apply u_diff_zero; try assumption; try lia; tauto].
      rewrite <- Q, Z.sub_diag. reflexivity.
    + right. set (n := if sig2 F fa / 2 ^ (eb - ea) >? sig2 F fb then na else negb na).
      destruct (u_diff F E n eb ea fb fa) as [e [f [J [N1 [N2 N3]]]]]; try assumption; try lia; try tauto.
      replace (Z.abs (sig2 F fa / 2 ^ (eb - ea) - sig2 F fb)) with (Z.abs (sig2 F fb - sig2 F fa / 2 ^ (eb - ea))) by lia.
      exists n, e, f, J. eexists. split; [exact N1|]. split; [lia|]. split; [exact N3|].
      unfold n, uval. rewrite !Z.gtb_ltb.
      destruct (Z.ltb_spec (sig2 F fb) (sig2 F fa / 2 ^ (eb - ea))),
               (Z.ltb_spec (sig2 F fa / 2 ^ (eb - ea)) (sig2 F fb)); try lia;
        destruct na; cbn [negb]; ring.
Qed.
