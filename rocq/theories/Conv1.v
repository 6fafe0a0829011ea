(** Unpacking float formats (unpack_xfloati). *)
From Coq Require Import ZArith QArith Qabs Lia Lqa List Bool.
From Verif Require Import Res CInt Bits Traits Cfg Spec Unpacked Posit QPow Core SpecLemmas Arith DecodeProof EncodeProof UOps UAdd Ops
  OpsAdd Room Laws Final1.
Open Scope Z_scope.

Lemma half_any : half_trait = any_floattrait 5 10 true. Proof. reflexivity. Qed.
Lemma single_any : single_trait = any_floattrait 8 23 true. Proof. reflexivity. Qed.
Lemma double_any : double_trait = any_floattrait 11 52 true. Proof. reflexivity. Qed.


Lemma crl_spec aw abits F v : is_width aw -> is_width F -> 0 < abits -> abits <= aw -> 0 <= v < 2 ^ aw ->
  exists r, cast_right_to_left aw abits F F v = Ok r /\ r = ((v mod 2 ^ abits) * 2 ^ F) / 2 ^ abits /\ 0 <= r < 2 ^ F.
Proof.
  intros WA WF A1 A2 V. pose proof (is_width_pos aw WA). pose proof (is_width_pos F WF).
  unfold cast_right_to_left. rewrite bitset_get_spec by (try assumption; unfold pw; lia). cbn [bind].
  rewrite Z.pow_0_r, Z.div_1_r. set (g := v mod 2 ^ abits).
  assert (G : 0 <= g < 2 ^ abits) by (apply Z.mod_pos_bound; apply Z.pow_pos_nonneg; lia).
  pow_pos 2 F. pow_pos 2 abits.
  rewrite Z.gtb_ltb. destruct (Z.ltb_spec F abits).
  - rewrite cshr_ok by (rewrite iw_prom_uint by assumption; unfold pw; lia). cbn [bind].
    assert (ES : 2 ^ abits = 2 ^ (abits - F) * 2 ^ F) by (rewrite <- Z.pow_add_r by lia; f_equal; lia).
    pow_pos 2 (abits - F).
    assert (EQ : g * 2 ^ F / 2 ^ abits = g / 2 ^ (abits - F)) by (rewrite ES; apply Z.div_mul_cancel_r; lia).
    assert (B : 0 <= g / 2 ^ (abits - F) < 2 ^ F).
    { split; [apply Z.div_pos; lia|]. apply Z.div_lt_upper_bound; [lia|]. rewrite <- ES. lia. }
    rewrite cast_u_small by assumption. eexists. split; [reflexivity|]. split; [symmetry; exact EQ|exact B].
  - assert (ES : 2 ^ F = 2 ^ abits * 2 ^ (F - abits)) by (rewrite <- Z.pow_add_r by lia; f_equal; lia).
    pow_pos 2 (F - abits).
    assert (GF : 0 <= g < 2 ^ F) by (split; [lia|]; apply Z.lt_le_trans with (2 ^ abits); [lia|apply pow2_mono; lia]).
    rewrite (cast_u_small F g) by assumption.
    assert (B : 0 <= g * 2 ^ (F - abits) < 2 ^ F) by (rewrite ES; split; nia).
    destruct (cshl_u_exact F g (F - abits)) as (r & E1 & E2); try assumption; try (unfold pw; lia); try lia.
    rewrite E1. cbn [bind]. rewrite E2. eexists. split; [reflexivity|]. split; [|assumption].
    rewrite ES. rewrite (Z.mul_comm (2 ^ abits)), Z.mul_assoc, Z.div_mul; lia.
Qed.

Section unpackf.
Variables eb fb F E : Z.
Variable den : bool.
Hypothesis FO : fmt_ok eb fb.
Hypothesis WF : is_width F.
Hypothesis WE : is_width E.
Hypothesis EE : eb < E.

Let bias := 2 ^ (eb - 1) - 1.
Let D : Z := eb + fb + 1.
Definition fexp_of (b : Z) : Z := (b / 2 ^ fb) mod 2 ^ eb.
Definition ffrac_of (b : Z) : Z := b mod 2 ^ fb.
Definition fsign_of (b : Z) : bool := negb ((b / 2 ^ (fb + eb)) mod 2 =? 0).

Lemma bias_bound : 1 <= bias /\ 2 * bias + 2 = 2 ^ eb /\ bias + F <= 2 ^ (E - 1) /\ 2 ^ eb <= 2 ^ (E - 1) /\ 2 ^ eb <= 2048.
Proof using FO WF WE EE.
  destruct FO as [W [E1 E2] Hf]. unfold bias.
  assert (P : 2 ^ eb = 2 * 2 ^ (eb - 1)) by (rewrite <- Z.pow_succ_r by lia; f_equal; lia).
  assert (P2 : 2 ^ 1 <= 2 ^ (eb - 1)) by (apply pow2_mono; lia).
  assert (P3 : 2 ^ eb <= 2 ^ 11) by (apply pow2_mono; lia).
  assert (P4 : 2 ^ eb <= 2 ^ (E - 1)) by (apply pow2_mono; lia).
  change (2 ^ 1) with 2 in P2. change (2 ^ 11) with 2048 in P3.
  repeat match goal with |- _ /\ _ => split end; try lia.
  pose proof (is_width_pos F WF).
  destruct WE as [->|[->|[->| ->]]].
  - change (2 ^ (8 - 1)) with 128 in *. lia.
  - change (2 ^ (16 - 1)) with 32768 in *. lia.
  - change (2 ^ (32 - 1)) with 2147483648 in *. lia.
  - change (2 ^ (64 - 1)) with 9223372036854775808 in *. lia.
Qed.
Lemma common_E : common (sint E) c_int = sint (Z.max 32 E) .
Proof using WE.
  clear EE. destruct WE as [->|[->|[->| ->]]]; reflexivity.
Qed.
Lemma E_range z : - 2 ^ (E - 1) <= z < 2 ^ (E - 1) -> - 2 ^ (Z.max 32 E - 1) <= z < 2 ^ (Z.max 32 E - 1).
Proof using WE. clear bias D. intros H. pose proof (is_width_pos E WE). assert (2 ^ (E - 1) <= 2 ^ (Z.max 32 E - 1)) by (apply pow2_mono; lia). lia. Qed.

Definition dec_frac (b : Z) : Z := (ffrac_of b * 2 ^ F) / 2 ^ fb.

Lemma unpack_float b : 0 <= b < 2 ^ D ->
  0 <= dec_frac b < 2 ^ F /\
  u_unpack_xfloati F E (any_floattrait eb fb den) b =
   (if fexp_of b =? 2 ^ eb - 1 then
      Ok (U (if dec_frac b =? 0 then Infinity else NaN) (fsign_of b) (fexp_of b - bias) (dec_frac b))
    else if fexp_of b =? 0 then
      if negb den || (dec_frac b =? 0) then Ok (U Zero false (- bias) (dec_frac b))
      else let l := Z.log2 (dec_frac b) in
           if F - l <? pw F then
             Ok (U Regular (fsign_of b) (l + 1 - bias - F) ((dec_frac b * 2 ^ (F - l)) mod 2 ^ F))
           else UB ShiftCount
    else Ok (U Regular (fsign_of b) (fexp_of b - bias) (dec_frac b))).
Proof using FO WF WE EE.
  intros B. destruct FO as [W [E1 E2] Hf]. pose proof bias_bound as (B1 & B2 & B3 & B4 & B5).
  fold D in W. pose proof (is_width_pos D W) as WD. pose proof (is_width_pos F WF) as WFp. pose proof (is_width_pos E WE) as WEp.
  unfold u_unpack_xfloati. cbn [any_floattrait t_hold t_data t_ebits t_fbits t_bias t_denorm]. fold D. fold bias.
  rewrite bitset_get_spec by (try assumption; unfold pw, D in *; lia). cbn [bind].
  fold (fexp_of b). set (e := fexp_of b).
  assert (Be : 0 <= e < 2 ^ eb) by (apply Z.mod_pos_bound; apply Z.pow_pos_nonneg; lia).
  rewrite (cast_s_small E e) by lia.
  unfold csub. rewrite common_E. rewrite (arith_s (Z.max 32 E) (e - bias)) by (try apply E_range; lia). cbn [bind].
  rewrite (cast_s_small E (e - bias)) by lia.
  destruct (crl_spec D fb F b) as (fr & C1 & C2 & C3); try assumption; try (unfold D; lia).
  rewrite C1. cbn [bind]. fold (ffrac_of b) in C2. fold (dec_frac b) in C2. rewrite C2 in *. split; [assumption|].
  assert (SG : negb (cand b (2 ^ (D - 1)) =? 0) = fsign_of b).
  { unfold cand. rewrite land_pow2_nz by lia. rewrite negb_involutive, testbit_div by lia. unfold fsign_of, D.
    replace (eb + fb + 1 - 1) with (fb + eb) by lia.
    pose proof (Z.mod_pos_bound (b / 2 ^ (fb + eb)) 2 ltac:(lia)).
    destruct (Z.eqb_spec ((b / 2 ^ (fb + eb)) mod 2) 1), (Z.eqb_spec ((b / 2 ^ (fb + eb)) mod 2) 0); try reflexivity; lia. }
  rewrite SG. destruct (Z.eqb_spec e (2 ^ eb - 1)); [reflexivity|].
  destruct (Z.eqb_spec e 0) as [E0|E0]; [|reflexivity].
  replace (e - bias) with (- bias) by lia.
  destruct (negb den || (dec_frac b =? 0)) eqn:Z0; [reflexivity|].
  apply orb_false_iff in Z0. destruct Z0 as [_ Z0]. apply Z.eqb_neq in Z0.
  assert (L : 0 <= Z.log2 (dec_frac b) < F).
  { split; [apply Z.log2_nonneg|]. apply Z.log2_lt_pow2; lia. }
  rewrite clz_spec by (try assumption; lia). cbn [bind]. cbn zeta. set (l := Z.log2 (dec_frac b)) in *.
  rewrite arith_s by (try apply E_range; lia). cbn [bind].
  replace (F - 1 - l + 1) with (F - l) by lia.
  destruct (Z.ltb_spec (F - l) (pw F)).
  - destruct (cshl_u F (dec_frac b) (F - l)) as (r & R1 & R2); try assumption; try lia.
    unfold pF. rewrite R1. cbn [bind]. rewrite R2.
    rewrite cast_s_small by lia. do 2 f_equal. lia.
  - assert (UBs : cshl (pF F) (dec_frac b) (F - l) = UB ShiftCount).
    { unfold cshl, pF. rewrite iw_prom_uint by assumption.
      destruct (Z.ltb_spec (F - l) 0), (Z.leb_spec (pw F) (F - l)); try lia; reflexivity. }
    rewrite UBs. reflexivity.
Qed.
End unpackf.

Definition sgn1 (s : bool) : Q := if s then -1 else 1.
Lemma uvalue_dy F n e f : 0 <= F -> (uvalue F n e f == sgn1 n * dy (2 ^ F + f) (e - F))%Q.
Proof.
  intros H. rewrite uvalue_uval by assumption. unfold uval, uabs, sgn1. destruct n; ring.
Qed.

Section values.
Variables eb fb F E : Z.
Variable den : bool.
Hypothesis FO : fmt_ok eb fb.
Hypothesis WF : is_width F.
Hypothesis WE : is_width E.
Hypothesis EE : eb < E.
Let bias := 2 ^ (eb - 1) - 1.

Lemma ieee_cases b : 0 <= b < 2 ^ (eb + fb + 1) ->
  0 <= ffrac_of fb b < 2 ^ fb /\ 0 <= fexp_of eb fb b < 2 ^ eb /\
  match ieee_val eb fb b with
  | InfVal s => fexp_of eb fb b = 2 ^ eb - 1 /\ ffrac_of fb b = 0 /\ s = fsign_of eb fb b
  | NaNVal => fexp_of eb fb b = 2 ^ eb - 1 /\ ffrac_of fb b <> 0
  | FinVal q => fexp_of eb fb b <> 2 ^ eb - 1 /\
      (fexp_of eb fb b = 0 /\ (q == sgn1 (fsign_of eb fb b) * dy (ffrac_of fb b) (1 - bias - fb))%Q \/
       fexp_of eb fb b <> 0 /\
         (q == sgn1 (fsign_of eb fb b) * dy (2 ^ fb + ffrac_of fb b) (fexp_of eb fb b - bias - fb))%Q)
  end.
Proof using FO.
  intros B. destruct FO as [W [E1 E2] Hf].
  split; [apply Z.mod_pos_bound, Z.pow_pos_nonneg; lia|]. split; [apply Z.mod_pos_bound, Z.pow_pos_nonneg; lia|].
  unfold ieee_val. cbn zeta. fold bias. fold (fexp_of eb fb b). fold (ffrac_of fb b).
  assert (SS : (if (b / 2 ^ (fb + eb)) mod 2 =? 0 then 1 else -1)%Q = sgn1 (fsign_of eb fb b)).
  { unfold sgn1, fsign_of. destruct ((b / 2 ^ (fb + eb)) mod 2 =? 0); reflexivity. }
  rewrite SS. fold (fsign_of eb fb b).
  destruct (Z.eqb_spec (fexp_of eb fb b) (2 ^ eb - 1)).
  - destruct (Z.eqb_spec (ffrac_of fb b) 0); auto.
  - destruct (Z.eqb_spec (fexp_of eb fb b) 0); (split; [assumption|]).
    + left. split; [assumption|]. reflexivity.
    + right. split; [assumption|]. reflexivity.
Qed.

(** Normal numbers, any FT: the fraction is truncated to F bits. *)
Lemma normal_cell b : 0 <= b < 2 ^ (eb + fb + 1) ->
  cell F (fexp_of eb fb b - bias) (dec_frac fb F b) 0 (dy (2 ^ fb + ffrac_of fb b) (fexp_of eb fb b - bias - fb)).
Proof using FO WF.
  intros B. destruct FO as [W [E1 E2] Hf]. pose proof (is_width_pos F WF).
  assert (Bf : 0 <= ffrac_of fb b < 2 ^ fb) by (apply Z.mod_pos_bound, Z.pow_pos_nonneg; lia).
  pow_pos 2 F. pow_pos 2 fb.
  assert (D1 : 0 <= dec_frac fb F b < 2 ^ F).
  { unfold dec_frac. split; [apply Z.div_pos; nia|apply Z.div_lt_upper_bound; nia]. }
  assert (D2 : dec_frac fb F b * 2 ^ fb <= ffrac_of fb b * 2 ^ F < (dec_frac fb F b + 1) * 2 ^ fb).
  { unfold dec_frac. pose proof (Z.div_mod (ffrac_of fb b * 2 ^ F) (2 ^ fb) ltac:(lia)).
    pose proof (Z.mod_pos_bound (ffrac_of fb b * 2 ^ F) (2 ^ fb) ltac:(lia)). nia. }
  set (e := fexp_of eb fb b - bias). unfold cell, uabs. split; [assumption|]. split; [lia|]. split; [apply Z.mod_1_r|].
  rewrite (dy_align (2 ^ fb + ffrac_of fb b) (e - fb) (e - fb - F)) by lia.
  rewrite (dy_align (2 ^ F + dec_frac fb F b) (e - F) (e - fb - F)) by lia.
  rewrite (dy_align (2 ^ F + dec_frac fb F b + 2 ^ 0) (e - F) (e - fb - F)) by lia.
  replace (e - fb - (e - fb - F)) with F by lia. replace (e - F - (e - fb - F)) with fb by lia.
  split; [apply dy_le|apply dy_lt]; change (2 ^ 0) with 1; nia.
Qed.

Lemma dec_wide b : fb <= F -> dec_frac fb F b = ffrac_of fb b * 2 ^ (F - fb).
Proof using FO.
  intros L. destruct FO as [W [E1 E2] Hf]. unfold dec_frac.
  replace (2 ^ F) with (2 ^ (F - fb) * 2 ^ fb) by (rewrite <- Z.pow_add_r by lia; f_equal; lia).
  rewrite Z.mul_assoc, Z.div_mul; [reflexivity|]. pow_pos 2 fb. lia.
Qed.

Lemma unpack_wide b : fb <= F -> 0 <= b < 2 ^ (eb + fb + 1) ->
  match ieee_val eb fb b with
  | InfVal s => exists e f, u_unpack_xfloati F E (any_floattrait eb fb den) b = Ok (U Infinity s e f)
  | NaNVal => exists n e f, u_unpack_xfloati F E (any_floattrait eb fb den) b = Ok (U NaN n e f)
  | FinVal q =>
     ((q == 0)%Q \/ (den = false /\ (Qabs q < pow2 (1 - bias))%Q)) /\
       (exists e f, u_unpack_xfloati F E (any_floattrait eb fb den) b = Ok (U Zero false e f)) \/
     ~ (q == 0)%Q /\ (den = true \/ (pow2 (1 - bias) <= Qabs q)%Q) /\
       (exists n e f, u_unpack_xfloati F E (any_floattrait eb fb den) b = Ok (U Regular n e f) /\
         0 <= f < 2 ^ F /\ (uvalue F n e f == q)%Q)
  end.
Proof using FO WF WE EE.
  intros L B. destruct (ieee_cases b B) as (Bf & Be & C).
  destruct (unpack_float eb fb F E den FO WF WE EE b B) as [Bd R]. fold bias in R. rewrite R. clear R.
  rewrite dec_wide in * by assumption. destruct FO as [W [E1 E2] Hf]. pose proof (is_width_pos F WF) as WFp.
  pose proof (bias_bound eb fb F E FO WF WE EE) as (B1 & B2 & _). fold bias in B1, B2.
  set (f := ffrac_of fb b) in *. set (e := fexp_of eb fb b) in *. pow_pos 2 (F - fb). pow_pos 2 fb.
  assert (Z0 : (f * 2 ^ (F - fb) =? 0) = (f =? 0)) by (destruct (Z.eqb_spec f 0), (Z.eqb_spec (f * 2 ^ (F - fb)) 0); nia).
  rewrite Z0.
  assert (SN : forall s m x, 0 < m -> (Qabs (sgn1 s * dy m x) == dy m x)%Q).
  { intros s m x M. pose proof (dy_pos m x M) as P. unfold sgn1. destruct s.
    - rewrite Qabs_neg by lra. ring.
    - rewrite Qabs_pos by lra. ring. }
  assert (NZ : forall s m x, 0 < m -> ~ (sgn1 s * dy m x == 0)%Q).
  { intros s m x M Q0. pose proof (dy_pos m x M) as P. unfold sgn1 in Q0. destruct s; lra. }
  destruct (ieee_val eb fb b) as [q|s|].
  - destruct C as [C1 [[C2 C3]|[C2 C3]]].
    + destruct (Z.eqb_spec e (2 ^ eb - 1)); [lia|]. destruct (Z.eqb_spec e 0); [|lia].
      destruct (Z.eqb_spec f 0) as [F0|F0].
      * left. split; [|rewrite orb_true_r; eauto]. left. rewrite C3, F0, dy_0. ring.
      * assert (LT : (dy f (1 - bias - fb) < pow2 (1 - bias))%Q).
        { apply Qlt_le_trans with (dy (2 ^ fb) (1 - bias - fb)); [apply dy_lt; lia|].
          rewrite <- (Z.mul_1_l (2 ^ fb)), dy_pow by lia. replace (1 - bias - fb + fb) with (1 - bias) by lia.
          unfold dy. change (inject_Z 1) with 1%Q. rewrite Qmult_1_l. apply Qle_refl. }
        destruct den; cbn [negb orb].
        2: { left. split; [|eauto]. right. split; [reflexivity|]. rewrite C3, SN by lia. exact LT. }
        right. split; [rewrite C3; apply NZ; lia|]. split; [left; reflexivity|].
        cbn zeta. set (d := f * 2 ^ (F - fb)) in *. assert (Dp : 0 < d) by (unfold d; nia).
        pose proof (Z.log2_spec d Dp) as LS. set (l := Z.log2 d) in *.
        assert (Lb : 0 <= l < F) by (split; [apply Z.log2_nonneg|apply Z.log2_lt_pow2; lia]).
        assert (Ls : F - l < pw F).
        { destruct (Z.eq_dec fb F) as [Ef|Nf].
          - unfold pw. destruct (Z_lt_dec F 32) as [|G]; [lia|exfalso]. subst F.
            destruct W as [X|[X|[X|X]]], WF as [Y|[Y|[Y|Y]]]; lia.
          - assert (1 <= l); [|unfold pw; lia]. apply Z.log2_le_pow2; [lia|].
            unfold d. replace (F - fb) with (F - fb - 1 + 1) by lia. rewrite Z.pow_add_r by lia.
            pow_pos 2 (F - fb - 1). change (2 ^ 1) with 2. nia. }
        destruct (Z.ltb_spec (F - l) (pw F)); [|lia].
        do 3 eexists. split; [reflexivity|]. pow_pos 2 F.
        split; [apply Z.mod_pos_bound; lia|].
        rewrite uvalue_dy by lia. rewrite C3. 
        assert (EQ : 2 ^ F + (d * 2 ^ (F - l)) mod 2 ^ F = d * 2 ^ (F - l)).
        { assert (EF : 2 ^ F = 2 ^ l * 2 ^ (F - l)) by (rewrite <- Z.pow_add_r by lia; f_equal; lia).
          rewrite Z.pow_succ_r in LS by lia. pow_pos 2 (F - l).
          replace (d * 2 ^ (F - l)) with ((d - 2 ^ l) * 2 ^ (F - l) + 1 * 2 ^ F) by (rewrite EF; ring).
          rewrite Z.mod_add by lia. rewrite Z.mod_small; [lia|]. rewrite EF. nia. }
        rewrite EQ, dy_pow by lia. unfold d. rewrite dy_pow by lia.
        replace (l + 1 - bias - F - F + (F - l) + (F - fb)) with (1 - bias - fb) by lia. reflexivity.
    + destruct (Z.eqb_spec e (2 ^ eb - 1)); [lia|]. destruct (Z.eqb_spec e 0); [lia|].
      right. split; [rewrite C3; apply NZ; lia|]. split.
      { right. rewrite C3, SN by lia. apply Qle_trans with (dy (2 ^ fb) (e - bias - fb)); [|apply dy_le; lia].
        rewrite <- (Z.mul_1_l (2 ^ fb)), dy_pow by lia. replace (e - bias - fb + fb) with (e - bias) by lia.
        unfold dy. change (inject_Z 1) with 1%Q. rewrite Qmult_1_l. apply pow2_le. lia. }
      do 3 eexists. split; [reflexivity|]. split; [assumption|].
      rewrite uvalue_dy by lia. rewrite C3.
      replace (2 ^ F + f * 2 ^ (F - fb)) with ((2 ^ fb + f) * 2 ^ (F - fb))
        by (replace (2 ^ F) with (2 ^ fb * 2 ^ (F - fb)) by (rewrite <- Z.pow_add_r by lia; f_equal; lia); ring).
      rewrite dy_pow by lia. replace (e - bias - F + (F - fb)) with (e - bias - fb) by lia. reflexivity.
  - destruct C as (C1 & C2 & ->). destruct (Z.eqb_spec e (2 ^ eb - 1)); [|lia].
    rewrite C2. eauto.
  - destruct C as (C1 & C2). destruct (Z.eqb_spec e (2 ^ eb - 1)); [|lia].
    destruct (Z.eqb_spec f 0); [contradiction|]. eauto.
Qed.
End values.
