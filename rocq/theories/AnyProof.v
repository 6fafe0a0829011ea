(** Conversions of anyfloat_emu. *)
From Coq Require Import ZArith QArith Qabs Lia Lqa List Bool Setoid.
From Verif Require Import Res CInt Bits Traits Unpacked Cfg Posit Spec SpecFloat SpecAny FloatOps PositF AnyFloat QPow Core SpecLemmas Arith DecodeProof EncodeProof
  UOps UAdd Ops OpsAdd OpsUnary OpsUnary2 Specials Room Laws Configs Final1 Final2 Final3 Conv1 Conv2 Conv3 Conv4 Conv5 TabProof5 FloatProof FloatProof2 PositFProof PositFProof2 PositFProof3.
Open Scope Z_scope.

(** A fraction type that is too narrow for the source but wide enough for the target changes nothing. *)
Lemma convert_narrow F eb fb eb' fb' b :
  is_width F -> fmt_ok eb fb -> fmt_ok eb' fb' -> eb' <= eb -> fb' <= F -> F < fb -> 0 <= b < 2 ^ (eb + fb + 1) ->
  (F < 32 \/ match ieee_val eb fb b with FinVal q => (q == 0)%Q \/ (pow2 (2 - 2 ^ (eb - 1)) <= Qabs q)%Q | _ => True end) ->
  (ieee_val eb fb b = NaNVal -> quiet eb fb b) ->
  convert F 32 (any_floattrait eb fb true) (any_floattrait eb' fb' true) b =
  convert 64 32 (any_floattrait eb fb true) (any_floattrait eb' fb' true) b.
Proof.
  intros WF FO FO' EE FF FN B SU QN. pose proof (is_width_pos F WF) as WFp.
  assert (W32 : is_width 32) by (unfold is_width; lia). assert (W64 : is_width 64) by (unfold is_width; lia).
  pose proof FO as FO1. destruct FO1 as [W [E1 E2] Hf]. pose proof FO' as FO2. destruct FO2 as [W' [E1' E2'] Hf'].
  assert (E32 : eb < 32) by lia.
  assert (F64 : fb <= 64) by (destruct W as [X|[X|[X|X]]]; lia).
  destruct (unpack_float eb fb F 32 true FO WF W32 E32 b B) as [BF U1].
  destruct (unpack_float eb fb 64 32 true FO W64 W32 E32 b B) as [B6 U6].
  destruct (ieee_cases eb fb FO b B) as (Bf & Be & C).
  unfold convert. rewrite U1, U6. clear U1 U6. set (fr := ffrac_of fb b) in *. set (ex := fexp_of eb fb b) in *. set (sg := fsign_of eb fb b) in *.
  assert (DF : dec_frac fb F b = fr * 2 ^ F / 2 ^ fb) by reflexivity. assert (D6 : dec_frac fb 64 b = fr * 2 ^ 64 / 2 ^ fb) by reflexivity.
  pow_pos 2 fb. pow_pos 2 F. pow_pos 2 (fb - F). pow_pos 2 (64 - fb). pow_pos 2 (fb - 1). pow_pos 2 (F - 1).
  assert (PF : 2 ^ fb = 2 ^ F * 2 ^ (fb - F)) by (rewrite <- Z.pow_add_r by lia; f_equal; lia).
  assert (P6 : 2 ^ 64 = 2 ^ fb * 2 ^ (64 - fb)) by (rewrite <- Z.pow_add_r by lia; f_equal; lia).
  assert (D6' : dec_frac fb 64 b = fr * 2 ^ (64 - fb)) by (rewrite D6, P6, (Z.mul_comm (2 ^ fb)), Z.mul_assoc, Z.div_mul; lia).
  assert (DF' : dec_frac fb F b = fr / 2 ^ (fb - F)) by (rewrite DF, PF, (Z.mul_comm (2 ^ F)); apply Z.div_mul_cancel_r; lia).
  assert (BI : 2 ^ eb = 2 * 2 ^ (eb - 1)) by (rewrite <- Z.pow_succ_r by lia; f_equal; lia).
  assert (BI' : 2 ^ eb' = 2 * 2 ^ (eb' - 1)) by (rewrite <- Z.pow_succ_r by lia; f_equal; lia).
  assert (BL : 2 ^ (eb' - 1) <= 2 ^ (eb - 1)) by (apply pow2_mono; lia).
  assert (B1 : 2 ^ (eb - 1) <= 2 ^ 10) by (apply pow2_mono; lia). change (2 ^ 10) with 1024 in B1.
  assert (B2 : 2 ^ 1 <= 2 ^ (eb' - 1)) by (apply pow2_mono; lia). change (2 ^ 1) with 2 in B2.
  set (L := Z.max 32 (least_bits eb')). assert (L1 : eb' < L) by (unfold L; lia).
  assert (P4 : 2 ^ 31 <= 2 ^ (L - 1)) by (apply pow2_mono; unfold L; lia). change (2 ^ 31) with 2147483648 in P4.
  destruct (Z.eqb_spec ex (2 ^ eb - 1)) as [TE|NTE].
  { cbn [bind]. assert (ZZ : (dec_frac fb F b =? 0) = (dec_frac fb 64 b =? 0)).
    { rewrite D6', DF'. destruct (Z.eqb_spec (fr * 2 ^ (64 - fb)) 0) as [Z0|Z0].
      - assert (fr = 0) by nia. rewrite H5. rewrite Z.div_0_l by lia. reflexivity.
      - assert (QU : quiet eb fb b).
        { apply QN. destruct (ieee_val eb fb b); [exfalso; destruct C as [C1 _]; lia|exfalso; destruct C as (_ & C2 & _); subst fr; lia|reflexivity]. }
        apply Z.eqb_neq. intros Q0. assert (SM : fr < 2 ^ (fb - F)) by (apply Z.div_small_iff in Q0; lia).
        assert (2 ^ (fb - F) <= 2 ^ (fb - 1)) by (apply pow2_mono; lia).
        unfold quiet in QU. assert (EF : 2 ^ fb = 2 * 2 ^ (fb - 1)) by (rewrite <- Z.pow_succ_r by lia; f_equal; lia).
        assert (BD : b = fr + (b / 2 ^ fb) * 2 ^ fb) by (unfold fr, ffrac_of; pose proof (Z.div_mod b (2 ^ fb) ltac:(lia)); lia).
        rewrite BD in QU. rewrite EF in QU at 2. replace (b / 2 ^ fb * (2 * 2 ^ (fb - 1))) with ((b / 2 ^ fb * 2) * 2 ^ (fb - 1)) in QU by ring.
        rewrite Z.div_add in QU by lia. rewrite (Z.div_small fr) in QU by lia. rewrite Z.add_0_l, Z.mod_mul in QU by lia. lia. }
    rewrite ZZ. destruct (dec_frac fb 64 b =? 0); reflexivity. }
  destruct (Z.eqb_spec ex 0) as [EZ|NEZ].
  { (* subnormal source: zero either way *)
    assert (SUB : forall G f e, is_width G -> 0 <= f < 2 ^ G -> - 2 ^ 20 <= e -> e + (2 ^ (eb' - 1) - 1) < 1 ->
       u_pack_xfloati G 32 (any_floattrait eb' fb' true) (U Regular sg e f) = Ok 0).
    { intros G f e WG FG EG EG2. change (2 ^ 20) with 1048576 in EG. destruct (pack_float eb' fb' G 32 true FO' WG W32 L1 sg e f FG) as (_ & _ & A & _); try (fold L; lia).
      apply A; [lia|reflexivity]. }
    assert (ONE : forall G, is_width G -> 0 <= dec_frac fb G b < 2 ^ G -> (dec_frac fb G b <> 0 -> G - Z.log2 (dec_frac fb G b) < pw G) ->
      (let! u := (if negb true || (dec_frac fb G b =? 0) then Ok (U Zero false (- (2 ^ (eb - 1) - 1)) (dec_frac fb G b))
        else let l := Z.log2 (dec_frac fb G b) in if G - l <? pw G then Ok (U Regular sg (l + 1 - (2 ^ (eb - 1) - 1) - G) ((dec_frac fb G b * 2 ^ (G - l)) mod 2 ^ G)) else UB ShiftCount)
       in u_pack_xfloati G 32 (any_floattrait eb' fb' true) u) = Ok 0).
    { intros G WG BG SG. pose proof (is_width_pos G WG) as GP. cbn [negb orb]. destruct (Z.eqb_spec (dec_frac fb G b) 0) as [Z0|Z0]; [reflexivity|].
      cbv zeta. specialize (SG Z0). destruct (Z.ltb_spec (G - Z.log2 (dec_frac fb G b)) (pw G)); [|lia]. cbn [bind].
      assert (LG : 0 <= Z.log2 (dec_frac fb G b) < G) by (split; [apply Z.log2_nonneg|apply Z.log2_lt_pow2; lia]).
      apply SUB; [exact WG|apply Z.mod_pos_bound; apply Z.pow_pos_nonneg; lia| |lia]. change (2 ^ 20) with 1048576. destruct WG as [G0|[G0|[G0|G0]]]; lia. }
    rewrite (ONE F), (ONE 64); try assumption; try reflexivity.
    - intros NZ. unfold pw. change (Z.max 64 32) with 64. assert (dec_frac fb 64 b > 0) by lia.
      assert (1 <= fr) by (rewrite D6' in NZ; nia). assert (2 ^ 1 <= 2 ^ (64 - fb)) by (apply pow2_mono; destruct W as [X|[X|[X|X]]]; lia). change (2 ^ 1) with 2 in *.
      assert (1 <= Z.log2 (dec_frac fb 64 b)) by (apply Z.log2_le_pow2; [lia|]; rewrite D6'; change (2 ^ 1) with 2; nia). lia.
    - intros NZ. destruct SU as [SU|SU]; [unfold pw; pose proof (Z.log2_nonneg (dec_frac fb F b)); lia|].
      exfalso. destruct (ieee_val eb fb b) as [q|s|] eqn:IV.
      + destruct C as [C1 [[C2 C3]|[C2 C3]]]; [|fold ex in C2; lia].
        fold fr in C3. set (j := 1 - (2 ^ (eb - 1) - 1) - fb) in *.
        assert (FP : 0 < fr) by (destruct (Z.eq_dec fr 0) as [Z0|]; [exfalso; apply NZ; rewrite DF', Z0; apply Z.div_0_l; lia|lia]).
        assert (DYP : (0 < dy fr j)%Q) by (rewrite <- (dy_0 j); apply dy_lt; lia).
        assert (DYU : (dy fr j < pow2 (2 - 2 ^ (eb - 1)))%Q).
        { apply Qlt_le_trans with (dy (2 ^ fb) j); [apply dy_lt; lia|].
          unfold dy. rewrite <- pow2_Z, <- pow2_plus by lia. replace (fb + j) with (2 - 2 ^ (eb - 1)) by lia. lra. }
        fold sg in C3. unfold sgn1 in C3. destruct SU as [SU|SU]; [rewrite SU in C3; destruct sg; lra|].
        destruct (abs_case q) as [[A1 A2]|[A1 A2]]; rewrite A2 in SU; destruct sg; lra.
      + destruct C as [C1 _]. fold ex in C1. lia.
      + destruct C as [C1 _]. fold ex in C1. lia. }
  (* normal source *)
  cbn [bind]. set (e := ex - (2 ^ (eb - 1) - 1)).
  destruct (pack_float eb' fb' F 32 true FO' WF W32 L1 sg e (dec_frac fb F b) BF) as (A1 & A2 & A3 & _); [fold L; unfold e; lia|fold L; unfold e; lia|].
  destruct (pack_float eb' fb' 64 32 true FO' W64 W32 L1 sg e (dec_frac fb 64 b) B6) as (C1 & C2 & C3 & _); [fold L; unfold e; lia|fold L; unfold e; lia|].
  destruct (Z_lt_le_dec (2 ^ eb' - 2) (e + (2 ^ (eb' - 1) - 1))) as [G1|G1]; [rewrite A1, C1 by assumption; reflexivity|].
  destruct (Z_lt_le_dec (e + (2 ^ (eb' - 1) - 1)) 1) as [G2|G2]; [rewrite A3, C3 by (assumption || reflexivity); reflexivity|].
  rewrite A2, C2 by lia. f_equal. f_equal. rewrite D6', DF'. pow_pos 2 fb'. pow_pos 2 (F - fb'). pow_pos 2 (fb - fb').
  assert (Q1 : 2 ^ F = 2 ^ (F - fb') * 2 ^ fb') by (rewrite <- Z.pow_add_r by lia; f_equal; lia).
  assert (Q2 : 2 ^ fb = 2 ^ (fb - fb') * 2 ^ fb') by (rewrite <- Z.pow_add_r by lia; f_equal; lia).
  assert (Q3 : 2 ^ (fb - fb') = 2 ^ (fb - F) * 2 ^ (F - fb')) by (rewrite <- Z.pow_add_r by lia; f_equal; lia).
  rewrite Q1. rewrite Z.div_mul_cancel_r by lia. rewrite Z.div_div by lia. rewrite <- Q3.
  rewrite P6, Q2. replace (fr * 2 ^ (64 - fb) * 2 ^ fb') with (fr * (2 ^ (64 - fb) * 2 ^ fb')) by ring.
  replace (2 ^ (fb - fb') * 2 ^ fb' * 2 ^ (64 - fb)) with (2 ^ (fb - fb') * (2 ^ (64 - fb) * 2 ^ fb')) by ring.
  rewrite Z.div_mul_cancel_r by nia. reflexivity.
Qed.
