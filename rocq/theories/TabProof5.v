(** Conversion between two float formats through Unpacked; software half floats. *)
From Coq Require Import ZArith QArith Qabs Qminmax List Bool Lia Lqa.
From Verif Require Import Res CInt Bits Traits Unpacked Cfg Posit Configs Spec QPow Core SpecLemmas Arith DecodeProof EncodeProof
  UOps UAdd Ops OpsAdd OpsUnary OpsUnary2 Specials Room Laws Final1 Final2 Final3 Conv1 Conv2 Conv3 Conv4 Conv5 Half TabProof TabProof2 TabProof4.
Import ListNotations.
Open Scope Z_scope.

Lemma unpack_exp_range F E eb fb den b n e f : fmt_ok eb fb -> is_width F -> is_width E -> eb < E -> 0 <= b < 2 ^ (eb + fb + 1) ->
  u_unpack_xfloati F E (any_floattrait eb fb den) b = Ok (U Regular n e f) ->
  - 2 ^ (eb - 1) - F <= e <= 2 ^ eb.
Proof.
  intros FO WF WE EE B H. destruct (unpack_float eb fb F E den FO WF WE EE b B) as [Bd R]. rewrite R in H. clear R.
  pose proof (is_width_pos F WF) as WFp.
  destruct FO as [W [E1 E2] Hf].
  assert (Be : 0 <= fexp_of eb fb b < 2 ^ eb) by (apply Z.mod_pos_bound; apply Z.pow_pos_nonneg; lia).
  pow_pos 2 (eb - 1).
  destruct (fexp_of eb fb b =? 2 ^ eb - 1).
  { destruct (dec_frac fb F b =? 0); discriminate. }
  destruct (fexp_of eb fb b =? 0).
  - destruct (negb den || (dec_frac fb F b =? 0)); [discriminate|]. cbv zeta in H.
    destruct (F - Z.log2 (dec_frac fb F b) <? pw F); [|discriminate]. injection H as _ He _.
    pose proof (Z.log2_nonneg (dec_frac fb F b)).
    assert (Z.log2 (dec_frac fb F b) < F).
    { destruct (Z.eq_dec (dec_frac fb F b) 0) as [->|NZ]; [cbn; lia|]. apply Z.log2_lt_pow2; lia. }
    pow_pos 2 eb. lia.
  - injection H as _ He _. assert (2 ^ (eb - 1) <= 2 ^ eb) by (apply pow2_mono; lia). lia.
Qed.

Lemma any_inf eb fb den (s : bool) : fmt_ok eb fb ->
  let r := if s then t_ninf (any_floattrait eb fb den) else t_pinf (any_floattrait eb fb den) in
  0 <= r < 2 ^ (eb + fb + 1) /\ ieee_val eb fb r = InfVal s.
Proof.
  intros FO. destruct (trait_inf eb fb den FO) as (A & B & _). pose proof FO as FO'. destruct FO' as [W [E1 E2] Hf].
  pow_pos 2 fb. pow_pos 2 eb. rewrite A, B. cbv zeta.
  replace (if s then fbits eb fb true (2 ^ eb - 1) 0 else fbits eb fb false (2 ^ eb - 1) 0) with (fbits eb fb s (2 ^ eb - 1) 0)
    by (destruct s; reflexivity).
  split; [apply (fbits_range eb fb FO); lia|]. apply (ieee_top eb fb s 0 FO). lia.
Qed.
Lemma any_nan eb fb den : fmt_ok eb fb ->
  0 <= t_nan (any_floattrait eb fb den) < 2 ^ (eb + fb + 1) /\ ieee_val eb fb (t_nan (any_floattrait eb fb den)) = NaNVal.
Proof.
  intros FO. destruct (trait_inf eb fb den FO) as (_ & _ & A). pose proof FO as FO'. destruct FO' as [W [E1 E2] Hf].
  pow_pos 2 fb. pow_pos 2 eb. pow_pos 2 (fb - 1).
  assert (EF : 2 ^ fb = 2 * 2 ^ (fb - 1)) by (rewrite <- Z.pow_succ_r by lia; f_equal; lia).
  rewrite A. split; [apply (fbits_range eb fb FO); lia|].
  rewrite (ieee_top eb fb false _ FO) by lia. destruct (Z.eqb_spec (2 ^ (fb - 1)) 0); [lia|reflexivity].
Qed.

Definition convert (F E : Z) (t t' : ftrait) (b : Z) : res Z :=
  let! u := u_unpack_xfloati F E t b in u_pack_xfloati F E t' u.

Lemma float_convert F E eb fb den eb' fb' den' b :
  is_width F -> is_width E -> 16 <= E -> fmt_ok eb fb -> fmt_ok eb' fb' -> fb <= F -> 0 <= b < 2 ^ (eb + fb + 1) ->
  let o := convert F E (any_floattrait eb fb den) (any_floattrait eb' fb' den') b in
  match ieee_val eb fb b with
  | NaNVal => exists r, o = Ok r /\ 0 <= r < 2 ^ (eb' + fb' + 1) /\ ieee_val eb' fb' r = NaNVal
  | InfVal s => exists r, o = Ok r /\ 0 <= r < 2 ^ (eb' + fb' + 1) /\ ieee_val eb' fb' r = InfVal s
  | FinVal q =>
     ((q == 0)%Q \/ (den = false /\ (Qabs q < pow2 (2 - 2 ^ (eb - 1)))%Q) -> o = Ok 0) /\
     (den = true \/ (pow2 (2 - 2 ^ (eb - 1)) <= Qabs q)%Q -> (pow2 (2 - 2 ^ (eb' - 1)) <= Qabs q)%Q ->
        exists r, o = Ok r /\ float_trunc eb' fb' q r) /\
     (den' = true -> (Qabs q < pow2 (2 - 2 ^ (eb' - 1)))%Q -> o = Ok 0)
  end.
Proof.
  intros WF WE E16 FO FO' FF B o.
  pose proof (is_width_pos F WF) as WFp.
  assert (EE : eb < E) by (destruct FO as [_ ? _]; lia).
  pose proof (unpack_wide eb fb F E den FO WF WE EE b FF B) as H.
  replace (1 - (2 ^ (eb - 1) - 1)) with (2 - 2 ^ (eb - 1)) in H by lia.
  destruct (ieee_val eb fb b) as [q|s|].
  - assert (T : (0 < pow2 (2 - 2 ^ (eb - 1)))%Q) by apply pow2_pos.
    assert (T' : (0 < pow2 (2 - 2 ^ (eb' - 1)))%Q) by apply pow2_pos.
    destruct H as [[Z [e [f U1]]]|[NZ [D [n [e [f [U1 [Hf Vq]]]]]]]].
    + assert (O : o = Ok 0) by (unfold o, convert; rewrite U1; reflexivity).
      split; [intros _; exact O|]. split; [|intros _ _; exact O].
      intros D T1. exfalso. destruct Z as [Z|[Z1 Z2]].
      * rewrite Z in T1. cbn [Qabs Z.abs] in T1. change (Qabs 0) with 0%Q in T1. lra.
      * destruct D as [D|D]; [congruence|lra].
    + pose proof (unpack_exp_range F E eb fb den b n e f FO WF WE EE B U1) as R.
      assert (O : o = u_pack_xfloati F E (any_floattrait eb' fb' den') (U Regular n e f))
        by (unfold o, convert; rewrite U1; reflexivity).
      destruct FO as [_ [E1 E2] Hfb]. pose proof FO' as FO2. destruct FO2 as [_ [E1' E2'] Hfb'].
      assert (P1 : 2 ^ (eb - 1) <= 2 ^ 10) by (apply pow2_mono; lia).
      assert (P2 : 2 ^ (eb' - 1) <= 2 ^ 10) by (apply pow2_mono; lia).
      assert (P3 : 2 ^ eb <= 2 ^ 11) by (apply pow2_mono; lia).
      change (2 ^ 10) with 1024 in *. change (2 ^ 11) with 2048 in *.
      set (L := Z.max E (least_bits eb')).
      assert (P4 : 2 ^ 15 <= 2 ^ (L - 1)) by (apply pow2_mono; unfold L; lia). change (2 ^ 15) with 32768 in P4.
      pow_pos 2 (eb' - 1).
      destruct (pack_float_trunc F E eb' fb' den' n e f q WF WE FO' ltac:(unfold L; lia) Hf ltac:(fold L; lia) ltac:(fold L; lia)
        ltac:(symmetry; exact Vq)) as (C1 & C2 & _).
      rewrite <- O in *. split; [|split].
      * intros [Z|[Z1 Z2]]; [contradiction|]. exfalso. destruct D as [D|D]; [congruence|lra].
      * intros _ T1. exact (C1 T1).
      * intros D' T1. exact (C2 T1 D').
  - destruct H as [e [f U1]]. destruct (any_inf eb' fb' den' s FO') as [A1 A2]. eexists. split; [|split; [exact A1|exact A2]].
    unfold o, convert. rewrite U1. reflexivity.
  - destruct H as [n [e [f U1]]]. destruct (any_nan eb' fb' den' FO') as [A1 A2]. eexists. split; [|split; [exact A1|exact A2]].
    unfold o, convert. rewrite U1. reflexivity.
Qed.

(** float32to16n *)
Lemma half_narrow b : 0 <= b < 2 ^ 32 ->
  match ieee_val 8 23 b with
  | NaNVal => exists h, float32to16n b = Ok h /\ 0 <= h < 2 ^ 16 /\ ieee_val 5 10 h = NaNVal
  | InfVal s => exists h, float32to16n b = Ok h /\ 0 <= h < 2 ^ 16 /\ ieee_val 5 10 h = InfVal s
  | FinVal q =>
     ((pow2 (-14) <= Qabs q)%Q -> exists h, float32to16n b = Ok h /\ float_trunc 5 10 q h) /\
     ((Qabs q < pow2 (-14))%Q -> float32to16n b = Ok 0)
  end.
Proof.
  intros B.
  assert (W32 : is_width 32) by (unfold is_width; lia).
  pose proof (float_convert 32 32 8 23 true 5 10 true b W32 W32 ltac:(lia) fmt_single fmt_half ltac:(lia) B) as H.
  change (convert 32 32 (any_floattrait 8 23 true) (any_floattrait 5 10 true) b) with (float32to16n b) in H.
  cbv zeta in H. destruct (ieee_val 8 23 b); try exact H.
  destruct H as (_ & H2 & H3). split.
  - intros T. apply H2; [left; reflexivity|exact T].
  - intros T. apply H3; [reflexivity|exact T].
Qed.

(** float16nto32 returns that integer as a number: for the half 1.0 it returns 1065353216. *)
Lemma half_widen_refuted : exists h b, 0 <= h < 2 ^ 16 /\ ieee_val 5 10 h = FinVal (1 * (inject_Z 1024 * pow2 (-10))) /\
  float16nto32_uint h = Ok b /\ ~ (inject_Z b == 1 * (inject_Z 1024 * pow2 (-10)))%Q.
Proof.
  exists 0x3c00. eexists. split; [lia|]. split; [vm_compute; reflexivity|]. split; [vm_compute; reflexivity|]. vm_compute. congruence.
Qed.

Lemma half_constants : ieee_val 5 10 h_zero = FinVal (1 * (inject_Z 0 * pow2 (-24))) /\ (exists q, ieee_val 5 10 h_one = FinVal q /\ (q == 1)%Q) /\ (exists q, ieee_val 5 10 h_two = FinVal q /\ (q == 2)%Q).
Proof. split; [reflexivity|]. split; eexists; (split; [reflexivity|]); vm_compute; reflexivity. Qed.

Lemma small_range_add c a b : valid_cfg c -> exp_ok c -> add_fits c -> roomy c ->
  2 * ((cN c - 2) * 2 ^ ces c) < Z.max 32 (cF c) -> real c a -> real c b ->
  exists r, p_add c a b = Ok r /\ faithful c (value c a + value c b) r /\ sign_ok (value c a + value c b) r.
Proof.
  intros V X A R S Ra Rb. apply (proj1 (add_total c a b V X A Ra Rb)). left.
  split; [apply near_small; try assumption; apply mul_fits_frac, add_fits_mul; exact A|].
  apply roomy_room_up; assumption.
Qed.
Lemma add_one_step c a b r v : valid_cfg c -> exp_ok c -> add_fits c -> real c a -> real c b ->
  p_add c a b = Ok r -> rounds_tz c (value c a + value c b) v -> Z.abs (v - r) <= 1.
Proof.
  intros V X A Ra Rb E T. destruct (p_add_faithful c a b r V X A Ra Rb E) as [F _].
  exact (faithful_step c _ v r V T F).
Qed.
