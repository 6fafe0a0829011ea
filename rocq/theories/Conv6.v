(** Float to posit with an FT narrower than the fraction of the float: the low bits are cut first. *)
From Coq Require Import ZArith QArith Qabs Qpower Lia Lqa Bool List.
From Verif Require Import Res CInt Bits Traits Unpacked Cfg Posit Spec QPow Core SpecLemmas Arith DecodeProof EncodeProof
  UOps UAdd Ops OpsAdd Room Final1 Conv1 Conv2.
Open Scope Z_scope.

Lemma floor_unique m d k x : (dy m k <= x)%Q -> (x < dy (m + 1) k)%Q -> (dy d k <= x)%Q -> (x < dy (d + 1) k)%Q -> m = d.
Proof.
  intros A B C D. destruct (Z.lt_trichotomy m d) as [L|[L|L]]; [exfalso|exact L|exfalso].
  - assert (dy (m + 1) k <= dy d k)%Q by (apply dy_le; lia). lra.
  - assert (dy (d + 1) k <= dy m k)%Q by (apply dy_le; lia). lra.
Qed.
Lemma dy_step m k : (dy (m + 1) k == dy m k + pow2 k)%Q.
Proof. unfold dy. rewrite inject_Z_plus. change (inject_Z 1) with 1%Q. ring. Qed.
Lemma sign_same q q' s a : (q == sgn1 s * a)%Q -> (0 < a)%Q -> (0 < Qabs q')%Q -> (0 <= q * q')%Q -> (q' == sgn1 s * Qabs q')%Q.
Proof.
  intros E A P H. unfold sgn1 in *. destruct (Qlt_le_dec q' 0) as [L|L].
  - rewrite Qabs_neg in * by lra. destruct s; [ring|exfalso]. assert (0 < q * - q')%Q; [|lra]. apply Qmult_lt_0_compat; lra.
  - rewrite Qabs_pos in * by lra. destruct s; [exfalso|ring]. assert (0 < - q * q')%Q; [|lra]. apply Qmult_lt_0_compat; lra.
Qed.
Lemma sgn1_abs s a q : (0 <= a)%Q -> (q == sgn1 s * a)%Q -> (Qabs q == a)%Q.
Proof. intros A E. rewrite E. unfold sgn1. destruct s; [rewrite Qabs_neg by lra|rewrite Qabs_pos by lra]; ring. Qed.
Lemma dec_cut f fb F o : 0 < fb -> 0 < F -> (dy (f * 2 ^ F / 2 ^ fb) (o - F) <= dy f (o - fb))%Q /\ (dy f (o - fb) < dy (f * 2 ^ F / 2 ^ fb + 1) (o - F))%Q.
Proof.
  intros P1 P2. pow_pos 2 fb. pow_pos 2 F. set (d := f * 2 ^ F / 2 ^ fb).
  assert (A : d * 2 ^ fb <= f * 2 ^ F < (d + 1) * 2 ^ fb).
  { unfold d. pose proof (Z.div_mod (f * 2 ^ F) (2 ^ fb) ltac:(lia)). pose proof (Z.mod_pos_bound (f * 2 ^ F) (2 ^ fb) ltac:(lia)). nia. }
  rewrite (dy_align d (o - F) (o - F - fb)), (dy_align f (o - fb) (o - F - fb)), (dy_align (d + 1) (o - F) (o - F - fb)) by lia.
  replace (o - F - (o - F - fb)) with fb by lia. replace (o - fb - (o - F - fb)) with F by lia.
  split; [apply dy_le|apply dy_lt]; lia.
Qed.
Lemma scale_cut x m k e : 0 < m -> scale x e -> (dy m k <= Qabs x)%Q -> (Qabs x < dy (m + 1) k)%Q -> e = Z.log2 m + k.
Proof.
  intros M S A B. apply (scale_unique x); [exact S|]. pose proof (Z.log2_spec m M) as [L1 L2]. pose proof (Z.log2_nonneg m).
  assert (E1 : forall l, 0 <= l -> (pow2 (l + k) == dy (2 ^ l) k)%Q) by (intros l Hl; unfold dy; rewrite pow2_plus, pow2_Z by lia; reflexivity).
  split.
  - rewrite E1 by lia. eapply Qle_trans; [|exact A]. apply dy_le. lia.
  - replace (Z.log2 m + k + 1) with (Z.succ (Z.log2 m) + k) by lia. rewrite E1 by lia. eapply Qlt_le_trans; [exact B|]. apply dy_le. lia.
Qed.

Lemma of_float_narrow c eb fb den b :
  valid_cfg c -> exp_ok c -> fmt_ok eb fb -> et_holds c eb -> cF c <= fb -> 0 <= b < 2 ^ (eb + fb + 1) ->
  match ieee_val eb fb b with
  | FinVal q =>
      ((q == 0)%Q -> p_of_float c (any_floattrait eb fb den) b = Ok 0) /\
      forall e k m q', scale q e -> k = Z.max e (2 - 2 ^ (eb - 1)) - cF c ->
        (Qabs q' == inject_Z m * pow2 k)%Q -> (0 <= q * q')%Q -> (Qabs q' <= Qabs q)%Q -> (Qabs q < Qabs q' + pow2 k)%Q ->
        (m = 0 \/ den = false /\ e < 2 - 2 ^ (eb - 1) -> p_of_float c (any_floattrait eb fb den) b = Ok 0) /\
        (m <> 0 -> den = true \/ 2 - 2 ^ (eb - 1) <= e ->
          (m = 1 -> 32 <= cF c -> p_of_float c (any_floattrait eb fb den) b = UB ShiftCount) /\
          (m <> 1 \/ cF c < 32 ->
            (room c q -> exists r, p_of_float c (any_floattrait eb fb den) b = Ok r /\ rounds_tz c q' r) /\
            (~ room c q -> p_of_float c (any_floattrait eb fb den) b = UB ShiftCount)))
  | InfVal s => p_of_float c (any_floattrait eb fb den) b = Ok (inf_of c s)
  | NaNVal => p_of_float c (any_floattrait eb fb den) b =
      Ok (if b mod 2 ^ fb / 2 ^ (fb - cF c) =? 0 then inf_of c (negb (b / 2 ^ (eb + fb) =? 0)) else exceptional c)
  end.
Proof.
  intros V X FO ET NF B. pose proof (et_ok c eb fb V FO ET) as EE. vcb V. pose proof (is_width_pos _ (vc_F c V)) as WFp.
  destruct (ieee_cases eb fb FO b B) as (Bf & Be & C).
  destruct (unpack_float eb fb (cF c) (c_E c) den FO (vc_F c V) (c_E_width c V) EE b B) as [Bd R].
  pose proof FO as FO'. destruct FO' as [W [E1 E2] Hf].
  assert (TE : exists T, p_of_float c (any_floattrait eb fb den) b = T) by eauto. destruct TE as [T TE]. rewrite TE.
  unfold p_of_float in TE. rewrite R in TE. clear R. set (F := cF c) in *.
  pow_pos 2 fb. pow_pos 2 F. pow_pos 2 (fb - F). pow_pos 2 eb.
  pose proof (dec_cut (ffrac_of fb b) fb F) as DC. fold (dec_frac fb F b) in DC.
  set (s := fsign_of eb fb b) in *. set (d := dec_frac fb F b) in *. set (f := ffrac_of fb b) in *. set (ee := fexp_of eb fb b) in *.
  assert (O2 : 1 - (2 ^ (eb - 1) - 1) = 2 - 2 ^ (eb - 1)) by lia. set (o := 2 - 2 ^ (eb - 1)) in *.
  destruct (ieee_val eb fb b) as [q|s'|].
  - destruct C as [C1 C]. destruct (Z.eqb_spec ee (2 ^ eb - 1)) as [Q|_]; [contradiction|].
    destruct C as [[C2 C3]|[C2 C3]].
    + rewrite C2 in TE. cbn [Z.eqb] in TE. rewrite O2 in C3.
      assert (P0 : (0 <= dy f (o - fb))%Q) by (rewrite <- (dy_0 (o - fb)); apply dy_le; lia).
      pose proof (sgn1_abs _ _ _ P0 C3) as AQ.
      assert (D0 : (q == 0)%Q -> d = 0).
      { intros Q. rewrite Q in AQ. change (Qabs 0) with 0%Q in AQ. destruct (DC o ltac:(lia) ltac:(lia)) as [L _].
        destruct (Z.eq_dec d 0) as [E|N]; [exact E|exfalso]. pose proof (dy_pos d (o - F) ltac:(lia)). lra. }
      split.
      { intros Q. subst T. rewrite (D0 Q). cbn [Z.eqb]. rewrite orb_true_r. cbn [bind]. apply pack_specials. assumption. }
      intros e k m q' S K Q1 Q2 Q3 Q4.
      assert (EO : e < o).
      { destruct S as [S1 S2]. rewrite AQ in S1. destruct (Z_lt_le_dec e o) as [L|L]; [exact L|exfalso].
        pose proof (pow2_le o e L). assert (dy f (o - fb) < dy (1 * 2 ^ fb) (o - fb))%Q by (apply dy_lt; lia). rewrite dy_pow in H4 by lia.
        replace (o - fb + fb) with o in H4 by lia. unfold dy at 2 in H4. change (inject_Z 1) with 1%Q in H4. lra. }
      assert (K2 : k = o - F) by lia. clear K. rewrite K2 in *. clear K2 k.
      fold (dy m (o - F)) in Q1.
      assert (MD : m = d).
      { apply (floor_unique m d (o - F) (Qabs q)); [lra|rewrite dy_step; lra| |]; rewrite AQ; apply DC; lia. }
      subst m. split.
      * intros [Z0|[Dn _]].
        { subst T. rewrite Z0. cbn [Z.eqb]. rewrite orb_true_r. cbn [bind]. apply pack_specials. assumption. }
        { subst T. rewrite Dn. cbn [negb orb bind]. apply pack_specials. assumption. }
      * intros Nm [Dn|L]; [|lia]. subst T. rewrite Dn. cbn [negb orb]. destruct (Z.eqb_spec d 0) as [|_]; [contradiction|].
        assert (Dp : 0 < d) by lia. pose proof (Z.log2_spec d Dp) as LS. set (l := Z.log2 d) in *.
        assert (L0 : 0 <= l) by apply Z.log2_nonneg. assert (LF : l < F) by (apply Z.log2_lt_pow2; lia). cbv zeta.
        split.
        { intros -> F32. assert (l = 0) by reflexivity. destruct (Z.ltb_spec (F - l) (pw F)); [unfold pw in *; lia|reflexivity]. }
        intros NU. replace (F - l <? pw F) with true.
        2:{ symmetry. apply Z.ltb_lt. unfold pw. destruct NU as [N1|N1]; [|lia].
            assert (0 < l) by (apply Z.log2_pos; lia). lia. }
        cbn [bind]. set (g := (d * 2 ^ (F - l)) mod 2 ^ F). assert (Bg : 0 <= g < 2 ^ F) by (apply Z.mod_pos_bound; lia).
        pow_pos 2 (F - l).
        assert (MV : 2 ^ F + g = d * 2 ^ (F - l)).
        { assert (PF : 2 ^ F = 2 ^ l * 2 ^ (F - l)) by (rewrite <- Z.pow_add_r by lia; f_equal; lia). rewrite Z.pow_succ_r in LS by lia. unfold g.
          replace ((d * 2 ^ (F - l)) mod 2 ^ F) with (d * 2 ^ (F - l) - 2 ^ F); [lia|]. apply Z.mod_unique with 1; [left; nia|lia]. }
        assert (PA : (0 < dy d (o - F))%Q) by (apply dy_pos; lia).
        assert (SQ : (q' == sgn1 s * Qabs q')%Q) by (apply (sign_same q q' s (dy f (o - fb)) C3); lra).
        assert (UV : (uvalue F s (l + 1 - (2 ^ (eb - 1) - 1) - F) g == q')%Q).
        { rewrite uvalue_dy by lia. rewrite MV, dy_pow by lia.
          replace (l + 1 - (2 ^ (eb - 1) - 1) - F - F + (F - l)) with (o - F) by (unfold o; lia). rewrite SQ, Q1. reflexivity. }
        destruct (reg_outcome c s _ g q' V X Bg UV) as [A1 A2].
        assert (RM : room c q <-> room c q').
        { rewrite (room_iff c q e S). assert (SE : e = l + (o - F)) by (apply (scale_cut q d (o - F) e); [lia|exact S|rewrite <- Q1; exact Q3|rewrite dy_step, <- Q1; exact Q4]).
          rewrite (room_iff c q' e); [reflexivity|]. rewrite SE.
          assert (E0 : forall j, 0 <= j -> (pow2 (j + (o - F)) == dy (2 ^ j) (o - F))%Q) by (intros j Hj; unfold dy; rewrite pow2_plus, pow2_Z by lia; reflexivity).
          split.
          - rewrite Q1, E0 by lia. apply dy_le. lia.
          - replace (l + (o - F) + 1) with (Z.succ l + (o - F)) by lia. rewrite Q1, E0 by lia. apply dy_lt. lia. }
        split; [intros Rq; apply A1, RM, Rq|intros Rq; apply A2; rewrite <- RM; exact Rq].
    + destruct (Z.eqb_spec ee 0) as [|_]; [lia|]. set (bb := 2 ^ (eb - 1) - 1) in *.
      assert (P0 : (0 < dy (2 ^ fb + f) (ee - bb - fb))%Q) by (apply dy_pos; lia).
      pose proof (sgn1_abs _ _ _ (Qlt_le_weak _ _ P0) C3) as AQ.
      split; [intros Q; rewrite Q in AQ; change (Qabs 0) with 0%Q in AQ; lra|].
      intros e k m q' S K Q1 Q2 Q3 Q4.
      assert (SE : e = ee - bb).
      { apply (scale_unique q); [exact S|]. split.
        - rewrite AQ. replace (ee - bb) with (fb + (ee - bb - fb)) by lia. rewrite pow2_plus, pow2_Z by lia. fold (dy (2 ^ fb) (ee - bb - fb)).
          replace (fb + (ee - bb - fb) - fb) with (ee - bb - fb) by lia. apply dy_le. lia.
        - rewrite AQ. replace (ee - bb + 1) with (Z.succ fb + (ee - bb - fb)) by lia. rewrite pow2_plus, pow2_Z by lia. fold (dy (2 ^ Z.succ fb) (ee - bb - fb)).
          apply dy_lt. rewrite Z.pow_succ_r by lia. lia. }
      assert (EO : o <= e) by (unfold o, bb in *; lia).
      assert (K2 : k = e - F) by lia. clear K. rewrite K2 in *. clear K2 k.
      fold (dy m (e - F)) in Q1. destruct (DC e ltac:(lia) ltac:(lia)) as [DC1 DC2]. clear DC. rewrite <- SE in *.
      assert (HQ : (Qabs q == pow2 e + dy f (e - fb))%Q).
      { rewrite AQ. unfold dy. rewrite inject_Z_plus, <- pow2_Z by lia. rewrite Qmult_plus_distr_l, <- pow2_plus.
        replace (fb + (e - fb)) with e by lia. reflexivity. }
      assert (HD : forall d, (dy (2 ^ F + d) (e - F) == pow2 e + dy d (e - F))%Q).
      { intros d'. unfold dy. rewrite inject_Z_plus, <- pow2_Z by lia. rewrite Qmult_plus_distr_l, <- pow2_plus.
        replace (F + (e - F)) with e by lia. reflexivity. }
      assert (MD : m = 2 ^ F + d).
      { apply (floor_unique m _ (e - F) (Qabs q)); [lra|rewrite dy_step; lra| |]; rewrite <- ?Z.add_assoc, HD, HQ; lra. }
      assert (M2 : 2 ^ 1 <= 2 ^ F) by (apply pow2_mono; lia). change (2 ^ 1) with 2 in M2.
      split; [intros [M|[_ M]]; lia|]. intros _ _. split; [lia|]. intros _.
      assert (PA : (0 < dy m (e - F))%Q) by (apply dy_pos; lia).
      assert (SQ : (q' == sgn1 s * Qabs q')%Q) by (apply (sign_same q q' s (dy (2 ^ fb + f) (e - fb))); [exact C3|exact P0|lra|exact Q2]).
      assert (UV : (uvalue F s e d == q')%Q) by (rewrite uvalue_dy by lia; rewrite <- MD, SQ, Q1; reflexivity).
      destruct (reg_outcome c s e d q' V X Bd UV) as [A1 A2].
      assert (RM : room c q <-> room c q').
      { rewrite (room_iff c q e S), (room_iff c q' e); [reflexivity|]. split.
        - rewrite Q1, MD, HD. assert (0 <= dy d (e - F))%Q by (rewrite <- (dy_0 (e - F)); apply dy_le; lia). lra.
        - destruct S. lra. }
      subst T. cbn [bind]. split; [intros Rq; apply A1, RM, Rq|intros Rq; apply A2; rewrite <- RM; exact Rq].
  - destruct C as (C1 & C2 & ->). destruct (Z.eqb_spec ee (2 ^ eb - 1)) as [_|]; [|contradiction]. subst T.
    replace d with 0 by (unfold d, dec_frac; fold f; rewrite C2, Z.mul_0_l, Z.div_0_l by lia; reflexivity).
    cbn [Z.eqb bind]. apply pack_specials. assumption.
  - destruct C as (C1 & C2). destruct (Z.eqb_spec ee (2 ^ eb - 1)) as [_|]; [|contradiction]. subst T.
    replace (b mod 2 ^ fb / 2 ^ (fb - F)) with d.
    2:{ unfold d, dec_frac. fold f. replace (2 ^ fb) with (2 ^ (fb - F) * 2 ^ F) at 1 by (rewrite <- Z.pow_add_r by lia; f_equal; lia).
        rewrite Z.div_mul_cancel_r by lia. reflexivity. }
    destruct (Z.eqb_spec d 0); cbn [bind]; [|apply pack_specials; assumption].
    rewrite (proj2 (proj2 (pack_specials c _ _ _ V))). f_equal. f_equal. unfold s, fsign_of. rewrite (Z.add_comm fb eb), Z.mod_small; [reflexivity|].
    pow_pos 2 (eb + fb). split; [apply Z.div_pos; lia|]. apply Z.div_lt_upper_bound; [lia|]. replace (2 ^ (eb + fb) * 2) with (2 ^ (eb + fb + 1)) by (rewrite Z.pow_add_r by lia; reflexivity). lia.
Qed.
