(** Posit to float conversion, and the round trip. *)
From Coq Require Import ZArith QArith Qabs Lia Lqa List Bool.
From Verif Require Import Res CInt Bits Traits Cfg Spec Unpacked Posit QPow Core SpecLemmas Arith DecodeProof EncodeProof UOps UAdd Ops
  OpsAdd Room Laws Configs Final1 Conv1 Conv2 Conv3 Conv4.
Open Scope Z_scope.

Lemma frac_cut F fb e f : 0 <= F -> 0 <= fb -> 0 <= f < 2 ^ F ->
  let m := f * 2 ^ fb / 2 ^ F in
  0 <= m < 2 ^ fb /\ (lval fb (e * 2 ^ fb + m) <= uabs F e f)%Q /\ (uabs F e f < lval fb (e * 2 ^ fb + m + 1))%Q.
Proof.
  intros HF Hb Hf. cbn zeta. pow_pos 2 F. pow_pos 2 fb. set (m := f * 2 ^ fb / 2 ^ F).
  assert (MB : 0 <= m < 2 ^ fb) by (unfold m; split; [apply Z.div_pos; nia|apply Z.div_lt_upper_bound; nia]).
  assert (M1 : m * 2 ^ F <= f * 2 ^ fb < (m + 1) * 2 ^ F).
  { unfold m. pose proof (Z.div_mod (f * 2 ^ fb) (2 ^ F) ltac:(lia)). pose proof (Z.mod_pos_bound (f * 2 ^ fb) (2 ^ F) ltac:(lia)). nia. }
  clearbody m. split; [assumption|].
  assert (U0 : (uabs F e f == dy ((2 ^ F + f) * 2 ^ fb) (e - F - fb))%Q).
  { unfold uabs. rewrite dy_pow by lia. replace (e - F - fb + fb) with (e - F) by lia. reflexivity. }
  assert (G : forall k, (dy (2 ^ fb + k) (e - fb) == dy ((2 ^ fb + k) * 2 ^ F) (e - F - fb))%Q).
  { intros k. rewrite dy_pow by lia. replace (e - F - fb + F) with (e - fb) by lia. reflexivity. }
  rewrite U0. split.
  - rewrite lval_ef by assumption. rewrite G. apply dy_le. nia.
  - rewrite <- Z.add_assoc. rewrite lval_ef' by lia. rewrite G. apply dy_lt. nia.
Qed.

Lemma pt_ok c eb fb : valid_cfg c -> fmt_ok eb fb -> pt_holds c eb -> eb < Z.max (c_E c) (least_bits eb).
Proof.
  intros V FO H. destruct FO as [_ E _]. pose proof (c_E_width c V) as W. destruct V as [WH _ _ _ _ _ _].
  unfold pt_holds, c_E, least_bits in *.
  rewrite Z.geb_leb in *. destruct (Z.leb_spec (cH c) (cN c + ces c)); destruct (Z.leb_spec eb 8); destruct (Z.leb_spec eb 16); destruct WH as [X|[X|[X|X]]]; lia.
Qed.

(** Truncation, saturation, underflow, for any unpacked number. *)
Lemma pack_float_trunc F E eb fb den n e f x : is_width F -> is_width E -> fmt_ok eb fb ->
  let L := Z.max E (least_bits eb) in
  eb < L -> 0 <= f < 2 ^ F -> - 2 ^ (L - 1) <= e -> e + (2 ^ (eb - 1) - 1) < 2 ^ (L - 1) ->
  (x == uvalue F n e f)%Q ->
  let o := u_pack_xfloati F E (any_floattrait eb fb den) (U Regular n e f) in
  let tiny := pow2 (2 - 2 ^ (eb - 1)) in
  ((tiny <= Qabs x)%Q -> exists b, o = Ok b /\ float_trunc eb fb x b) /\
  ((Qabs x < tiny)%Q -> den = true -> o = Ok 0) /\
  ((Qabs x < tiny)%Q -> den = false -> eb + fb + 1 < 32 -> fb < F ->
     ((pow2 (- 2 ^ (eb - 1) - 30) <= Qabs x)%Q -> exists b, o = Ok b /\ float_trunc eb fb x b) /\
     ((Qabs x < pow2 (- 2 ^ (eb - 1) - 30))%Q -> o = UB ShiftCount)).
Proof.
  intros WF WE FO L EL Hf B1 B2 Vv. cbn zeta. pose proof (is_width_pos F WF) as WFp. pose proof (is_width_pos E WE) as WEp.
  pose proof FO as FO'. destruct FO' as [W [E1 E2] Hfb].
  rewrite uvalue_uval in Vv by lia.
  set (bias := 2 ^ (eb - 1) - 1) in *.
  assert (EB1 : 2 ^ eb = 2 * 2 ^ (eb - 1)) by (rewrite <- Z.pow_succ_r by lia; f_equal; lia).
  assert (P4 : 2 ^ 1 <= 2 ^ (eb - 1)) by (apply pow2_mono; lia). change (2 ^ 1) with 2 in P4.
  destruct (pack_float eb fb F E den FO WF WE EL n e f Hf B1 B2) as (Q1 & Q2 & Q3 & Q4 & Q5).
  fold bias in Q1, Q2, Q3, Q4, Q5.
  set (o := u_pack_xfloati F E (any_floattrait eb fb den) (U Regular n e f)) in *. clearbody o.
  destruct (uabs_scale F e f ltac:(lia) Hf) as [S1 S2].
  assert (AP : (0 < uabs F e f)%Q) by (pose proof (pow2_pos e); lra).
  assert (VS : (x == sgq n (uabs F e f))%Q) by (rewrite Vv; unfold uval, sgq; destruct n; reflexivity).
  assert (AX : (Qabs x == uabs F e f)%Q) by (rewrite VS; apply sgq_abs; lra).
  destruct (frac_cut F fb e f ltac:(lia) ltac:(lia) Hf) as (C0 & C1 & C2). pow_pos 2 fb.
  split; [|split].
  - rewrite AX. intros T. assert (TE : 1 <= e + bias).
    { assert (2 - 2 ^ (eb - 1) < e + 1) by (apply pow2_lt_inv; lra). unfold bias. lia. }
    destruct (Z_le_gt_dec (e + bias) (2 ^ eb - 2)) as [LE|GT].
    + eexists. split; [apply Q2; lia|]. eapply trunc_normal; try eassumption; fold bias; try lia.
      * replace (e + bias - bias) with e by lia. assumption.
      * left. replace (e + bias - bias) with e by lia. assumption.
    + eexists. split; [apply Q1; lia|]. eapply trunc_normal; try eassumption; fold bias; try lia.
      eapply Qle_trans; [|exact C1]. apply lval_le; [lia|].
      assert (2 ^ eb - 1 - bias <= e) by lia. nia.
  - rewrite AX. intros T D. apply Q3; [|assumption].
    assert (e < 2 - 2 ^ (eb - 1)) by (apply pow2_lt_inv; lra). unfold bias. lia.
  - intros T D D32 FF32. rewrite AX in *. assert (TE : e + bias < 1).
    { assert (e < 2 - 2 ^ (eb - 1)) by (apply pow2_lt_inv; lra). unfold bias. lia. }
    split; intros A.
    + assert (SH : - (e + bias) < 32).
      { assert (- 2 ^ (eb - 1) - 30 < e + 1) by (apply pow2_lt_inv; lra). unfold bias. lia. }
      eexists. split; [apply Q4; try assumption; lia|].
      set (s := F - fb + 1 - (e + bias)) in *. assert (SP : 1 <= s) by (unfold s; lia). pow_pos 2 s.
      set (m := (2 ^ F + f) / 2 ^ s). pow_pos 2 F.
      assert (MM : m * 2 ^ s <= 2 ^ F + f < (m + 1) * 2 ^ s).
      { unfold m. pose proof (Z.div_mod (2 ^ F + f) (2 ^ s) ltac:(lia)). pose proof (Z.mod_pos_bound (2 ^ F + f) (2 ^ s) ltac:(lia)). nia. }
      assert (MB : 0 <= m < 2 ^ fb).
      { unfold m. split; [apply Z.div_pos; lia|]. apply Z.div_lt_upper_bound; [lia|]. rewrite <- Z.pow_add_r by lia.
        apply Z.lt_le_trans with (2 ^ (F + 1)); [rewrite Z.pow_add_r by lia; change (2 ^ 1) with 2; lia|].
        apply pow2_mono; unfold s; lia. }
      assert (SE : 1 - bias - fb = e - F + s) by (unfold s; lia).
      eapply trunc_sub; try eassumption; fold bias; rewrite SE, <- dy_pow by lia; unfold uabs; [apply dy_le|apply dy_lt]; lia.
    + apply Q5; try assumption; try lia.
      assert (e < - 2 ^ (eb - 1) - 30) by (apply pow2_lt_inv; lra). unfold bias. lia.
Qed.

Lemma to_float c eb fb den v : valid_cfg c -> fmt_ok eb fb -> pt_holds c eb -> frac_fits c -> real c v ->
  let x := value c v in
  let o := p_to_float c (any_floattrait eb fb den) v in
  let tiny := pow2 (2 - 2 ^ (eb - 1)) in
  ((x == 0)%Q -> o = Ok 0) /\
  ((tiny <= Qabs x)%Q -> exists b, o = Ok b /\ float_trunc eb fb x b) /\
  ((Qabs x < tiny)%Q -> den = true -> o = Ok 0) /\
  (~ (x == 0)%Q -> (Qabs x < tiny)%Q -> den = false -> eb + fb + 1 < 32 -> fb < cF c ->
     ((pow2 (- 2 ^ (eb - 1) - 30) <= Qabs x)%Q -> exists b, o = Ok b /\ float_trunc eb fb x b) /\
     ((Qabs x < pow2 (- 2 ^ (eb - 1) - 30))%Q -> o = UB ShiftCount)).
Proof.
  intros V FO PT FF R. cbn zeta. vcb V. unfold p_to_float.
  destruct (Z.eq_dec v 0) as [->|NZ].
  { assert (V0 : (value c 0 == 0)%Q) by reflexivity.
    destruct (classify c 0 V) as [[_ U0]|[[N _]|[[N _]|[_ [N _]]]]].
    - unfold pattern. pow_pos 2 (cN c - 1). lia.
    - rewrite U0. cbn [bind]. repeat match goal with |- _ /\ _ => split end; try (intros; reflexivity).
      + rewrite V0. intros A. exfalso. change (Qabs 0) with 0%Q in A. pose proof (pow2_pos (2 - 2 ^ (eb - 1))). lra.
      + intros A. exfalso. apply A, V0.
    - exfalso. destruct (kinds_disjoint c 0 V) as (_ & K & _). tauto.
    - exfalso. destruct (kinds_disjoint c 0 V) as (_ & _ & K & _). tauto.
    - contradiction. }
  destruct (unpack_real c v 0 V ltac:(lia)) as (e & f & U0 & Hf & He & _ & Vv); try assumption.
  { unfold frac_fits in FF. rewrite gran_val. lia. }
  rewrite U0. cbn [bind]. set (n := v <? 0) in *. clearbody n.
  pose proof (pt_ok c eb fb V FO PT) as EL.
  destruct (emax_bound c V) as [M1 M2]. pose proof (is_width_pos _ (c_E_width c V)) as WEp.
  pose proof FO as FO'. destruct FO' as [W [E1 E2] Hfb].
  set (L := Z.max (c_E c) (least_bits eb)) in *.
  assert (EL2 : 2 ^ (c_E c - 1) <= 2 ^ (L - 1)) by (apply pow2_mono; lia).
  assert (EB : 2 ^ (eb - 1) <= 2 ^ (L - 2)) by (apply pow2_mono; lia).
  assert (L2 : 2 ^ (L - 1) = 2 * 2 ^ (L - 2)) by (rewrite <- Z.pow_succ_r by lia; f_equal; lia).
  rewrite <- uvalue_uval in Vv by lia.
  destruct (pack_float_trunc (cF c) (c_E c) eb fb den n e f _ (vc_F c V) (c_E_width c V) FO EL Hf ltac:(fold L; lia) ltac:(fold L; lia) Vv) as (Q1 & Q2 & Q3).
  split.
  - intros Z0. exfalso. apply NZ. apply (real_bounds c BN Bes) in R. pow_pos 2 (cN c - 1).
    apply (value_inj c BN Bes); try lia. rewrite Z0. reflexivity.
  - split; [assumption|]. split; [assumption|]. intros _. assumption.
Qed.

(** Infinities and NaN. *)
Lemma trait_inf eb fb den : fmt_ok eb fb ->
  t_pinf (any_floattrait eb fb den) = fbits eb fb false (2 ^ eb - 1) 0 /\
  t_ninf (any_floattrait eb fb den) = fbits eb fb true (2 ^ eb - 1) 0 /\
  t_nan (any_floattrait eb fb den) = fbits eb fb false (2 ^ eb - 1) (2 ^ (fb - 1)).
Proof.
  intros FO. pose proof FO as FO'. destruct FO' as [W [E1 E2] Hf]. cbn [any_floattrait t_pinf t_ninf t_nan].
  replace (eb + fb + 1 - 1) with (eb + fb) by lia. set (D := eb + fb + 1).
  pow_pos 2 (eb + fb). pow_pos 2 fb. pow_pos 2 eb. pow_pos 2 (fb - 1).
  assert (ED : 2 ^ D = 2 * 2 ^ (eb + fb)) by (unfold D; rewrite (Z.pow_add_r 2 (eb + fb) 1) by lia; ring).
  assert (ES : 2 ^ (eb + fb) = 2 ^ eb * 2 ^ fb) by (rewrite <- Z.pow_add_r by lia; f_equal; lia).
  assert (EF : 2 ^ fb = 2 * 2 ^ (fb - 1)) by (rewrite <- Z.pow_succ_r by lia; f_equal; lia).
  assert (EB : 2 ^ (eb + 1) = 2 * 2 ^ eb) by (rewrite Z.pow_add_r by lia; ring).
  unfold kmask. rewrite (cast_u_small D ((2 ^ eb - 1) * 2 ^ fb)) by (rewrite ED, ES; nia).
  rewrite (cast_u_small D (2 ^ (eb + fb))) by lia.
  split; [unfold fbits; ring|]. split.
  - unfold cor. rewrite <- (Z.mul_1_l (2 ^ (eb + fb))). rewrite lor_add; [unfold fbits; ring|lia|rewrite ES; nia].
  - rewrite cast_u_small.
    + unfold fbits. rewrite EB, EF. ring.
    + rewrite ED, ES, EB, EF. nia.
Qed.
Lemma ieee_top eb fb s m : fmt_ok eb fb -> 0 <= m < 2 ^ fb ->
  ieee_val eb fb (fbits eb fb s (2 ^ eb - 1) m) = if m =? 0 then InfVal s else NaNVal.
Proof.
  intros FO Hm. pose proof FO as FO'. destruct FO' as [W [E1 E2] Hf]. pow_pos 2 eb. assert (He : 0 <= 2 ^ eb - 1 < 2 ^ eb) by lia.
  destruct (ieee_cases eb fb FO _ (fbits_range eb fb FO s (2 ^ eb - 1) m He Hm)) as (_ & _ & C).
  destruct (fbits_parts eb fb FO s (2 ^ eb - 1) m He Hm) as (P1 & P2 & P3). rewrite P1, P2, P3 in C.
  destruct (ieee_val eb fb (fbits eb fb s (2 ^ eb - 1) m)) as [q|n|].
  - destruct C as [C _]. lia.
  - destruct C as (_ & C1 & C2). subst. rewrite Z.eqb_refl. reflexivity.
  - destruct C as [_ C]. destruct (Z.eqb_spec m 0); [contradiction|reflexivity].
Qed.
Lemma special_pattern c v : valid_cfg c -> is_nan c v \/ is_inf c v -> pattern c v.
Proof.
  intros V S. vcb V. unfold pattern. pow_pos 2 (cN c - 2).
  assert (2 ^ (cN c - 1) = 2 * 2 ^ (cN c - 2)) by (rewrite <- Z.pow_succ_r by lia; f_equal; lia).
  destruct S as [[_ ->]|[[_ ->]|[[_ ->]|[_ ->]]]]; lia.
Qed.
Lemma to_float_special c eb fb den v : valid_cfg c -> fmt_ok eb fb ->
  (is_nan c v -> exists b, p_to_float c (any_floattrait eb fb den) v = Ok b /\ 0 <= b < 2 ^ (eb + fb + 1) /\ ieee_val eb fb b = NaNVal) /\
  (is_inf c v -> exists b, p_to_float c (any_floattrait eb fb den) v = Ok b /\ 0 <= b < 2 ^ (eb + fb + 1) /\ ieee_val eb fb b = InfVal (v <? 0)).
Proof.
  intros V FO. vcb V. destruct (kinds_disjoint c v V) as (K0 & K1 & K2 & _). unfold p_to_float.
  destruct (trait_inf eb fb den FO) as (T1 & T2 & T3). pose proof FO as FO'. destruct FO' as [W [E1 E2] Hf].
  pow_pos 2 fb. pow_pos 2 eb. pow_pos 2 (fb - 1).
  assert (EF : 2 ^ fb = 2 * 2 ^ (fb - 1)) by (rewrite <- Z.pow_succ_r by lia; f_equal; lia).
  split; intros S.
  - destruct (classify c v V) as [[Z U0]|[[N U0]|[[N U0]|[N _]]]].
    + apply special_pattern; auto.
    + exfalso. subst. destruct S as [_ S]. pow_pos 2 (cN c - 1). lia.
    + rewrite U0. cbn [bind u_pack_xfloati utyp]. rewrite T3. eexists. split; [reflexivity|]. split; [apply fbits_range; [assumption|lia|lia]|].
      rewrite ieee_top by (assumption || lia). destruct (Z.eqb_spec (2 ^ (fb - 1)) 0); [lia|reflexivity].
    + tauto.
    + tauto.
  - destruct (classify c v V) as [[Z U0]|[[N U0]|[[N U0]|[N _]]]].
    + apply special_pattern; auto.
    + exfalso. subst. pow_pos 2 (cN c - 2). assert (2 ^ (cN c - 1) = 2 * 2 ^ (cN c - 2)) by (rewrite <- Z.pow_succ_r by lia; f_equal; lia).
      assert (2 ^ 1 <= 2 ^ (cN c - 2)) by (destruct V; apply pow2_mono; lia). change (2 ^ 1) with 2 in *.
      destruct S as [[_ S]|[[_ S]|[_ S]]]; lia.
    + tauto.
    + rewrite U0. cbn [bind u_pack_xfloati utyp uneg].
      destruct (v <? 0); [rewrite T2|rewrite T1]; eexists; (split; [reflexivity|]; split; [apply fbits_range; [assumption|lia|lia]|]);
      rewrite ieee_top by (assumption || lia); reflexivity.
    + tauto.
Qed.

(** A number that the float format holds is converted exactly, and the way back returns the same posit. *)
Lemma to_float_exact c eb fb den v q : valid_cfg c -> fmt_ok eb fb -> pt_holds c eb -> frac_fits c -> real c v ->
  (exists b0, 0 <= b0 < 2 ^ (eb + fb + 1) /\ ieee_val eb fb b0 = FinVal q) -> (q == value c v)%Q ->
  (pow2 (2 - 2 ^ (eb - 1)) <= Qabs (value c v))%Q ->
  exists b r, p_to_float c (any_floattrait eb fb den) v = Ok b /\ 0 <= b < 2 ^ (eb + fb + 1) /\ ieee_val eb fb b = FinVal r /\ (r == value c v)%Q.
Proof.
  intros V FO PT FF R (b0 & B0 & I0) Q T.
  destruct (to_float c eb fb den v V FO PT FF R) as (_ & A & _). destruct (A T) as (b & O & B & r & I & L1 & L2 & L3).
  exists b, r. split; [assumption|]. split; [assumption|]. split; [assumption|].
  assert (L4 : (Qabs q <= Qabs r)%Q) by (apply (L3 b0 q B0 I0); rewrite Q; apply Qle_refl).
  rewrite Q in L4. set (x := value c v) in *. clearbody x.
  pose proof (pow2_pos (2 - 2 ^ (eb - 1))) as PP. set (t := pow2 (2 - 2 ^ (eb - 1))) in *. clearbody t.
  assert (AE : (Qabs r == Qabs x)%Q) by lra. clear - AE L2 T PP.
  destruct (Qlt_le_dec r 0) as [A|A]; destruct (Qlt_le_dec x 0) as [B|B];
    [rewrite (Qabs_neg r), (Qabs_neg x) in AE by lra|rewrite (Qabs_neg r), (Qabs_pos x) in AE by lra|
     rewrite (Qabs_pos r), (Qabs_neg x) in AE by lra|rewrite (Qabs_pos r), (Qabs_pos x) in AE by lra];
    try lra; exfalso; [rewrite (Qabs_pos x) in T by lra|rewrite (Qabs_neg x) in T by lra]; nra.
Qed.


Lemma covered c eb fb v : valid_cfg c -> fmt_ok eb fb -> frac_fits c -> float_covers c eb fb -> real c v -> v <> 0 ->
  (exists b0 q, 0 <= b0 < 2 ^ (eb + fb + 1) /\ ieee_val eb fb b0 = FinVal q /\ (q == value c v)%Q) /\
  (pow2 (2 - 2 ^ (eb - 1)) <= Qabs (value c v))%Q.
Proof.
  intros V FO FF [C1 C2] R NZ. vcb V. unfold frac_fits in FF. pose proof FO as FO'. destruct FO' as [W [E1 E2] Hfb].
  pose proof (gran_nonneg c BN Bes) as G.
  assert (GV : gran c = cN c - 3 - ces c \/ gran c = 0) by (rewrite gran_val; lia).
  destruct (unpack_real c v (cF c - gran c) V ltac:(lia) ltac:(lia) R NZ) as (e & f & U0 & Hf & He & Fm & Vv).
  set (n := v <? 0) in *. clearbody n.
  assert (EM : emax c <= 2 ^ (eb - 1) - 2) by (unfold emax; lia).
  destruct (uabs_scale (cF c) e f ltac:(lia) Hf) as [S1 S2].
  assert (AP : (0 < uabs (cF c) e f)%Q) by (pose proof (pow2_pos e); lra).
  assert (VS : (value c v == sgq n (uabs (cF c) e f))%Q) by (rewrite Vv; unfold uval, sgq; destruct n; reflexivity).
  assert (AX : (Qabs (value c v) == uabs (cF c) e f)%Q) by (rewrite VS; apply sgq_abs; lra).
  assert (EB1 : 2 ^ eb = 2 * 2 ^ (eb - 1)) by (rewrite <- Z.pow_succ_r by lia; f_equal; lia).
  split; [|rewrite AX; eapply Qle_trans; [|exact S1]; apply pow2_le; lia].
  set (F := cF c) in *. set (g := gran c) in *. pow_pos 2 F. pow_pos 2 fb. pow_pos 2 (F - g). pow_pos 2 g.
  assert (FD : f = f / 2 ^ (F - g) * 2 ^ (F - g)) by (pose proof (Z.div_mod f (2 ^ (F - g)) ltac:(lia)); lia).
  set (k := f / 2 ^ (F - g)) in *. clearbody k.
  assert (EF : 2 ^ F = 2 ^ g * 2 ^ (F - g)) by (rewrite <- Z.pow_add_r by lia; f_equal; lia).
  assert (EFB : 2 ^ fb = 2 ^ g * 2 ^ (fb - g)) by (rewrite <- Z.pow_add_r by lia; f_equal; lia). pow_pos 2 (fb - g).
  assert (KB : 0 <= k < 2 ^ g) by nia.
  assert (MB : 0 <= k * 2 ^ (fb - g) < 2 ^ fb) by nia.
  destruct (ieee_normal eb fb FO n (e + (2 ^ (eb - 1) - 1)) (k * 2 ^ (fb - g)) ltac:(lia) MB) as (q & I & Q).
  exists (fbits eb fb n (e + (2 ^ (eb - 1) - 1)) (k * 2 ^ (fb - g))), q.
  split; [apply fbits_range; [assumption|lia|assumption]|]. split; [assumption|].
  rewrite Q, VS. replace (e + (2 ^ (eb - 1) - 1) - (2 ^ (eb - 1) - 1)) with e by lia. rewrite lval_ef by assumption.
  assert (D1 : (dy (2 ^ fb + k * 2 ^ (fb - g)) (e - fb) == dy (2 ^ g + k) (e - g))%Q).
  { rewrite EFB. replace (2 ^ g * 2 ^ (fb - g) + k * 2 ^ (fb - g)) with ((2 ^ g + k) * 2 ^ (fb - g)) by ring.
    rewrite dy_pow by lia. replace (e - fb + (fb - g)) with (e - g) by lia. reflexivity. }
  assert (D2 : (uabs F e f == dy (2 ^ g + k) (e - g))%Q).
  { unfold uabs. rewrite FD, EF. replace (2 ^ g * 2 ^ (F - g) + k * 2 ^ (F - g)) with ((2 ^ g + k) * 2 ^ (F - g)) by ring.
    rewrite dy_pow by lia. replace (e - F + (F - g)) with (e - g) by lia. reflexivity. }
  unfold sgq. destruct n; rewrite D1, D2; reflexivity.
Qed.

Lemma to_float_covered c eb fb den v : valid_cfg c -> fmt_ok eb fb -> pt_holds c eb -> frac_fits c -> float_covers c eb fb -> real c v ->
  exists b r, p_to_float c (any_floattrait eb fb den) v = Ok b /\ 0 <= b < 2 ^ (eb + fb + 1) /\ ieee_val eb fb b = FinVal r /\ (r == value c v)%Q.
Proof.
  intros V FO PT FF FC R. destruct (Z.eq_dec v 0) as [->|NZ].
  - destruct (to_float c eb fb den 0 V FO PT FF R) as (A & _). exists 0.
    assert (V0 : (value c 0 == 0)%Q) by reflexivity.
    pose proof FO as FO'. destruct FO' as [W [E1 E2] Hf]. pow_pos 2 fb.
    destruct (ieee_sub eb fb FO false 0 ltac:(lia)) as (q & I & Q). exists q.
    split; [apply A, V0|]. pow_pos 2 (eb + fb + 1). split; [lia|]. split; [exact I|]. rewrite Q, V0. cbn [sgq]. apply dy_0.
  - destruct (covered c eb fb v V FO FF FC R NZ) as [(b0 & q & B & I & Q) T].
    apply (to_float_exact c eb fb den v q); try assumption. exists b0. auto.
Qed.

Lemma float_round_trip c eb fb den v : valid_cfg c -> exp_ok c -> fmt_ok eb fb -> et_holds c eb -> frac_fits c -> float_covers c eb fb ->
  real c v -> room c (value c v) ->
  exists b, p_to_float c (any_floattrait eb fb den) v = Ok b /\ p_of_float c (any_floattrait eb fb den) b = Ok v.
Proof.
  intros V X FO ET FF FC R RM. vcb V.
  assert (PT : pt_holds c eb) by (unfold pt_holds, et_holds in *; lia).
  destruct (to_float_covered c eb fb den v V FO PT FF FC R) as (b & r & O & B & I & Q).
  exists b. split; [assumption|].
  destruct (Z.eq_dec v 0) as [->|NZ].
  - destruct (to_float c eb fb den 0 V FO PT FF R) as (A & _). rewrite A in O by reflexivity. injection O as <-.
    pose proof FO as FO'. destruct FO' as [W [E1 E2] Hf]. 
    destruct (unpack_float eb fb (cF c) (c_E c) den FO (vc_F c V) (c_E_width c V) (et_ok c eb fb V FO ET) 0 B) as [_ U].
    unfold p_of_float. rewrite U.
    assert (F0 : fexp_of eb fb 0 = 0) by (unfold fexp_of; rewrite Z.div_0_l, Z.mod_0_l by (apply Z.pow_nonzero; lia); reflexivity).
    assert (M0 : dec_frac fb (cF c) 0 = 0) by (unfold dec_frac, ffrac_of; rewrite Z.mod_0_l, Z.mul_0_l, Z.div_0_l by (apply Z.pow_nonzero; lia); reflexivity).
    rewrite F0, M0. assert (P4 : 2 ^ 2 <= 2 ^ eb) by (apply pow2_mono; lia). change (2 ^ 2) with 4 in P4.
    destruct (Z.eqb_spec 0 (2 ^ eb - 1)); [lia|]. change (0 =? 0) with true. rewrite orb_true_r. cbn iota. cbn [bind].
    apply pack_specials. assumption.
  - destruct (covered c eb fb v V FO FF FC R NZ) as [_ T]. rewrite <- Q in T.
    destruct (of_float_normal c eb fb den b r V X FO ET FF B I T) as [A _].
    destruct (A (room_comp c _ _ (Qeq_sym _ _ Q) RM)) as (w & O2 & R2). rewrite O2. f_equal.
    apply (rounds_tz_unique c BN Bes (value c v)); [|apply rounds_tz_exact; assumption].
    apply (rounds_tz_comp c BN Bes _ _ _ Q R2).
Qed.

Lemma special_round_trip c eb fb den v : valid_cfg c -> fmt_ok eb fb -> et_holds c eb -> is_nan c v \/ is_inf c v ->
  exists b, p_to_float c (any_floattrait eb fb den) v = Ok b /\ p_of_float c (any_floattrait eb fb den) b = Ok v.
Proof.
  intros V FO ET S. vcb V. destruct (kinds_disjoint c v V) as (K0 & K1 & K2 & _). unfold p_to_float, p_of_float.
  destruct (trait_inf eb fb den FO) as (T1 & T2 & T3). pose proof FO as FO'. destruct FO' as [W [E1 E2] Hf].
  pow_pos 2 fb. pow_pos 2 eb. pow_pos 2 (fb - 1). pow_pos 2 (cF c).
  assert (EF : 2 ^ fb = 2 * 2 ^ (fb - 1)) by (rewrite <- Z.pow_succ_r by lia; f_equal; lia).
  assert (EFF : 2 ^ cF c = 2 * 2 ^ (cF c - 1)) by (pose proof (is_width_pos _ (vc_F c V)); rewrite <- Z.pow_succ_r by lia; f_equal; lia).
  pow_pos 2 (cF c - 1).
  assert (UP : forall s m, 0 <= m < 2 ^ fb ->
    u_unpack_xfloati (cF c) (c_E c) (any_floattrait eb fb den) (fbits eb fb s (2 ^ eb - 1) m) =
    Ok (U (if (m * 2 ^ cF c) / 2 ^ fb =? 0 then Infinity else NaN) s (2 ^ eb - 1 - (2 ^ (eb - 1) - 1)) ((m * 2 ^ cF c) / 2 ^ fb))).
  { intros s m Hm. assert (He : 0 <= 2 ^ eb - 1 < 2 ^ eb) by lia.
    destruct (unpack_float eb fb (cF c) (c_E c) den FO (vc_F c V) (c_E_width c V) (et_ok c eb fb V FO ET) _ (fbits_range eb fb FO s _ m He Hm)) as [_ U].
    rewrite U. unfold dec_frac. destruct (fbits_parts eb fb FO s (2 ^ eb - 1) m He Hm) as (P1 & P2 & P3). rewrite P1, P2, P3.
    rewrite Z.eqb_refl. reflexivity. }
  assert (I0 : forall s, exists e f, u_unpack_xfloati (cF c) (c_E c) (any_floattrait eb fb den) (fbits eb fb s (2 ^ eb - 1) 0) = Ok (U Infinity s e f)).
  { intros s. rewrite UP by lia. rewrite Z.mul_0_l, Z.div_0_l by lia. eauto. }
  assert (P : pattern c v) by (apply special_pattern; assumption).
  destruct (classify c v V P) as [[Z U0]|[[N U0]|[[N U0]|[N _]]]].
  - exfalso. subst. pow_pos 2 (cN c - 2). assert (2 ^ (cN c - 1) = 2 * 2 ^ (cN c - 2)) by (rewrite <- Z.pow_succ_r by lia; f_equal; lia).
    assert (2 ^ 1 <= 2 ^ (cN c - 2)) by (apply pow2_mono; lia). change (2 ^ 1) with 2 in *.
    destruct S as [[_ S]|[[_ S]|[[_ S]|[_ S]]]]; lia.
  - rewrite U0. cbn [bind u_pack_xfloati utyp]. rewrite T3. eexists. split; [reflexivity|].
    rewrite UP by lia. replace (2 ^ (fb - 1) * 2 ^ cF c) with (2 ^ (cF c - 1) * 2 ^ fb) by (rewrite EF, EFF; ring).
    rewrite Z.div_mul by lia. destruct (Z.eqb_spec (2 ^ (cF c - 1)) 0); [lia|]. cbn [bind].
    rewrite (proj1 (proj2 (pack_specials c _ _ _ V))). f_equal. unfold exceptional. destruct N as [_ N]. congruence.
  - rewrite U0. cbn [bind u_pack_xfloati utyp uneg]. pow_pos 2 (cN c - 2). assert (2 ^ (cN c - 1) = 2 * 2 ^ (cN c - 2)) by (rewrite <- Z.pow_succ_r by lia; f_equal; lia).
    assert (2 ^ 1 <= 2 ^ (cN c - 2)) by (apply pow2_mono; lia). change (2 ^ 1) with 2 in *.
    assert (Iv : forall s, (s = (v <? 0)) \/ csp c = WithInf -> inf_of c s = v).
    { intros s Hs. unfold inf_of. destruct N as [[N1 N2]|[[N1 N2]|[N1 N2]]]; rewrite N1.
      - assert ((v <? 0) = false) as A by lia. rewrite A in Hs. destruct Hs as [->|Hs]; [congruence|rewrite N1 in Hs; discriminate].
      - assert ((v <? 0) = true) as A by lia. rewrite A in Hs. destruct Hs as [->|Hs]; [congruence|rewrite N1 in Hs; discriminate].
      - congruence. }
    destruct (v <? 0); [rewrite T2; destruct (I0 true) as (e & f & U1)|rewrite T1; destruct (I0 false) as (e & f & U1)];
      (eexists; split; [reflexivity|]; rewrite U1; cbn [bind]; rewrite (proj2 (proj2 (pack_specials c _ _ _ V))); f_equal; apply Iv; auto).
  - tauto.
Qed.

Lemma fbits_inv eb fb b : fmt_ok eb fb -> 0 <= b < 2 ^ (eb + fb + 1) ->
  fbits eb fb (fsign_of eb fb b) (fexp_of eb fb b) (ffrac_of fb b) = b.
Proof.
  intros FO B. destruct FO as [W [E1 E2] Hf]. unfold fbits, fsign_of, fexp_of, ffrac_of. pow_pos 2 fb. pow_pos 2 eb. pow_pos 2 (eb + fb).
  replace (fb + eb) with (eb + fb) by lia. assert (ES : 2 ^ (eb + fb) = 2 ^ fb * 2 ^ eb) by (rewrite <- Z.pow_add_r by lia; f_equal; lia).
  rewrite Z.pow_add_r in B by lia. change (2 ^ 1) with 2 in B.
  assert (Q : 0 <= b / 2 ^ (eb + fb) < 2) by (split; [apply Z.div_pos; lia|apply Z.div_lt_upper_bound; lia]).
  assert (A1 : b = 2 ^ fb * (b / 2 ^ fb) + b mod 2 ^ fb) by (apply Z.div_mod; lia).
  assert (A2 : b / 2 ^ fb = 2 ^ eb * (b / 2 ^ (eb + fb)) + (b / 2 ^ fb) mod 2 ^ eb) by (rewrite ES, <- Z.div_div by lia; apply Z.div_mod; lia).
  rewrite (Z.mod_small (b / 2 ^ (eb + fb)) 2) by assumption || idtac.
  set (q := b / 2 ^ (eb + fb)) in *. set (d := b / 2 ^ fb) in *. set (dm := d mod 2 ^ eb) in *. set (bm := b mod 2 ^ fb) in *.
  clearbody q d dm bm. rewrite ES. assert (q = 0 \/ q = 1) as [-> | ->] by lia;
    cbn [Z.eqb Pos.eqb negb]; clear - A1 A2; subst b d; ring.
Qed.

(** A normal float goes through Unpacked unchanged; so do the infinities. *)
Lemma unpack_pack_float F E eb fb den b q : is_width F -> is_width E -> fmt_ok eb fb -> eb < E -> fb <= F -> 0 <= b < 2 ^ (eb + fb + 1) ->
  ieee_val eb fb b = FinVal q -> (pow2 (2 - 2 ^ (eb - 1)) <= Qabs q)%Q ->
  exists u, u_unpack_xfloati F E (any_floattrait eb fb den) b = Ok u /\ u_pack_xfloati F E (any_floattrait eb fb den) u = Ok b.
Proof.
  intros WF WE FO EE FF B I T. pose proof (is_width_pos F WF) as WFp. pose proof (is_width_pos E WE) as WEp.
  destruct (ieee_cases eb fb FO b B) as (Bf & Be & C). rewrite I in C.
  destruct (unpack_float eb fb F E den FO WF WE EE b B) as [Bd R].
  pose proof FO as FO'. destruct FO' as [W [E1 E2] Hfb].
  destruct C as [C1 [[C2 C3]|[C2 C3]]].
  - exfalso. pose proof (sub_below eb fb FO (ffrac_of fb b) Bf) as SB. 
    assert (A : (Qabs q == dy (ffrac_of fb b) (1 - (2 ^ (eb - 1) - 1) - fb))%Q).
    { rewrite C3. assert (P : (0 <= dy (ffrac_of fb b) (1 - (2 ^ (eb - 1) - 1) - fb))%Q) by (rewrite <- (dy_0 (1 - (2 ^ (eb - 1) - 1) - fb)); apply dy_le; lia).
      unfold sgn1. destruct (fsign_of eb fb b); [rewrite Qabs_neg by lra|rewrite Qabs_pos by lra]; ring. }
    rewrite A in T. pow_pos 2 fb. replace ((1 - (2 ^ (eb - 1) - 1)) * 2 ^ fb) with ((1 - (2 ^ (eb - 1) - 1)) * 2 ^ fb + 0) in SB by lia.
    rewrite lval_ef in SB by lia. rewrite Z.add_0_r, <- (Z.mul_1_l (2 ^ fb)), dy_pow in SB by lia.
    replace (1 - (2 ^ (eb - 1) - 1) - fb + fb) with (2 - 2 ^ (eb - 1)) in SB by lia. unfold dy in SB at 2. change (inject_Z 1) with 1%Q in SB.
    rewrite Qmult_1_l in SB. lra.
  - destruct (Z.eqb_spec (fexp_of eb fb b) (2 ^ eb - 1)); [contradiction|].
    destruct (Z.eqb_spec (fexp_of eb fb b) 0); [contradiction|].
    eexists. split; [exact R|].
    assert (EL : eb < Z.max E (least_bits eb)) by lia.
    assert (EB : 2 ^ eb <= 2 ^ (Z.max E (least_bits eb) - 1)) by (apply pow2_mono; lia).
    assert (EB1 : 2 ^ eb = 2 * 2 ^ (eb - 1)) by (rewrite <- Z.pow_succ_r by lia; f_equal; lia).
    destruct (pack_float eb fb F E den FO WF WE EL (fsign_of eb fb b) (fexp_of eb fb b - (2 ^ (eb - 1) - 1)) (dec_frac fb F b) Bd ltac:(lia) ltac:(lia)) as (_ & Q2 & _).
    rewrite Q2 by lia. f_equal. replace (fexp_of eb fb b - (2 ^ (eb - 1) - 1) + (2 ^ (eb - 1) - 1)) with (fexp_of eb fb b) by lia.
    rewrite <- (fbits_inv eb fb b FO B) at 4. f_equal. unfold dec_frac. pow_pos 2 fb. pow_pos 2 F.
    replace (2 ^ F) with (2 ^ (F - fb) * 2 ^ fb) by (rewrite <- Z.pow_add_r by lia; f_equal; lia). pow_pos 2 (F - fb).
    rewrite Z.mul_assoc, Z.div_mul by lia. rewrite <- Z.mul_assoc, Z.div_mul; nia.
Qed.

Lemma round_trip_gen c eb fb den v q : valid_cfg c -> exp_ok c -> fmt_ok eb fb -> et_holds c eb -> frac_fits c -> real c v ->
  (exists b0, 0 <= b0 < 2 ^ (eb + fb + 1) /\ ieee_val eb fb b0 = FinVal q) -> (q == value c v)%Q ->
  (pow2 (2 - 2 ^ (eb - 1)) <= Qabs (value c v))%Q -> room c (value c v) ->
  exists b, p_to_float c (any_floattrait eb fb den) v = Ok b /\ p_of_float c (any_floattrait eb fb den) b = Ok v.
Proof.
  intros V X FO ET FF R B0 Q T RM. vcb V.
  assert (PT : pt_holds c eb) by (unfold pt_holds, et_holds in *; lia).
  destruct (to_float_exact c eb fb den v q V FO PT FF R B0 Q T) as (b & r & O & B & I & Qr).
  exists b. split; [assumption|]. rewrite <- Qr in T.
  destruct (of_float_normal c eb fb den b r V X FO ET FF B I T) as [A _].
  destruct (A (room_comp c _ _ (Qeq_sym _ _ Qr) RM)) as (w & O2 & R2). rewrite O2. f_equal.
  apply (rounds_tz_unique c BN Bes (value c v)); [|apply rounds_tz_exact; assumption].
  apply (rounds_tz_comp c BN Bes _ _ _ Qr R2).
Qed.

(** Counterexamples. *)
Lemma narrow_fraction :
  (ieee_val 11 52 1 = FinVal (1 * (inject_Z 1 * pow2 (1 - (2 ^ (11 - 1) - 1) - 52))) /\ p_of_float p16 double_trait 1 = Ok 0) /\
  (ieee_val 11 52 0x7ff0000000000001 = NaNVal /\ p_of_float p16ni double_trait 0x7ff0000000000001 = Ok (inf_of p16ni false)) /\
  p_of_float p32 double_trait (2 ^ 20) = UB ShiftCount.
Proof. vm_compute. repeat split. Qed.
Lemma narrow_exponent :
  valid_cfg (Cfg 8 6 0 8 WithNan) /\
  p_of_float (Cfg 8 6 0 8 WithNan) double_trait 0x4000000000000000 = Ok 0 /\
  p_of_float (Cfg 8 6 0 8 WithNan) single_trait 0x7f800000 = Ok 1 /\
  p_to_float (Cfg 8 6 0 8 WithNan) single_trait 24 = Ok 0 /\ (value (Cfg 8 6 0 8 WithNan) 24 == 2)%Q.
Proof. split; [constructor; cbn; unfold is_width; lia|]. vm_compute. repeat split. Qed.
Lemma pack_float_wraps : exists e f, 0 <= f < 2 ^ 16 /\ - 2 ^ 15 <= e < 2 ^ 15 /\
  (pow2 127 <= uvalue 16 false e f)%Q /\ u_pack_xfloati 16 16 single_trait (U Regular false e f) = Ok 0.
Proof.
  exists 32767, 0. split; [lia|]. split; [lia|]. split; [|vm_compute; reflexivity].
  assert (A : (uvalue 16 false 32767 0 == pow2 32767)%Q).
  { unfold uvalue. change (inject_Z 0) with 0%Q. set (p := pow2 32767). clearbody p. unfold Qdiv. ring. }
  rewrite A. apply pow2_le. lia.
Qed.
Lemma to_int_wrong :
  (real p16 16384 /\ (value p16 16384 == 1)%Q /\ p_to_int p16 16384 = UB ShiftCount) /\
  (exists v z, real p32 v /\ (value p32 v == 3221225472)%Q /\ p_to_int p32 v = Ok z /\ z < 0).
Proof.
  split; [vm_compute; repeat split; discriminate|]. exists 2142765056, (3221225472 - 2 ^ 32).
  vm_compute. repeat split; discriminate.
Qed.
