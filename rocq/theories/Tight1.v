(** Sharper forms of earlier statements: inv of exact reciprocals without exception, next at the largest
    posit, fma on degenerate arguments with the exact packing condition. *)
From Coq Require Import ZArith QArith Qabs Lia Lqa List Bool.
From Verif Require Import Res CInt Bits Cfg Spec Unpacked Posit QPow Core SpecLemmas Arith DecodeProof EncodeProof UOps Ops
  OpsAdd OpsUnary OpsUnary2 Specials Room Laws Configs Final1 Final2 Final3 Final4 Fma Misc4 Examples.
Open Scope Z_scope.

Lemma maxpos_minpos c : valid_cfg c -> exp_ok c -> csp c = WithNanInf ->
  (value c 1 * value c (maxreal c) < 1)%Q.
Proof.
  intros V X S. vcb V. destruct (limits c V X) as (lo & hi & L & H & A & B).
  rewrite minexponent_spec in L by assumption. rewrite maxexponent_spec in H by assumption.
  injection L as <-. injection H as <-. pow_pos 2 (ces c).
  assert (P1 : p_min c = 1) by (unfold p_min, P_AFTER0, deep, tS; apply cast_s_small; [lia|]; pose proof (pow2_mono 1 (cH c - 1) ltac:(lia)); lia).
  pose proof (maxreal_bounds c BN Bes) as MB. pose proof (pow2_mono (cN c - 1) (cH c - 1) ltac:(lia)).
  assert (P2 : p_max c = maxreal c) by (unfold p_max; rewrite P_MAXPOS_val by assumption; unfold deep, tS; apply cast_s_small; lia).
  rewrite P1 in A. rewrite P2 in B. rewrite A, B, <- pow2_plus.
  change 1%Q with (pow2 0). apply pow2_lt. unfold emax, maxk. rewrite S. cbn [spec_eqb]. nia.
Qed.

Lemma inv_exact_all c x y r : valid_cfg c -> exp_ok c -> mul_fits c -> real c x -> real c y ->
  (value c x * value c y == 1)%Q -> p_inv c x = Ok r -> r = y.
Proof.
  intros V X MF Rx Ry E P. vcb V.
  assert (NZ : x <> 0).
  { intros ->. assert (Z0 : (value c 0 == 0)%Q) by (unfold value; reflexivity). rewrite Z0 in E. lra. }
  assert (D : ~ inv_escapes c x \/ inv_escapes c x).
  { unfold inv_escapes. destruct (csp c); [left; intros [? _]; discriminate|left; intros [? _]; discriminate|].
    destruct (Z.eq_dec x 1); [right; auto|]. destruct (Z.eq_dec x (-1)); [right; auto|]. left; intros [_ [?|?]]; contradiction. }
  destruct D as [NE|[S O]].
  2:{ exfalso. pose proof (maxreal_bounds c BN Bes) as MB. pose proof (maxpos_minpos c V X S) as M.
    assert (P1 : (0 < value c 1)%Q) by (apply (value_pos c BN Bes); pose proof (maxreal_bounds c BN Bes); pow_pos 2 (cN c - 1); lia).
    assert (U : (value c y <= value c (maxreal c))%Q) by (apply real_value_le; try assumption; unfold real in *; lia).
    assert (W : (- value c (maxreal c) <= value c y)%Q) by (rewrite <- vopp; apply real_value_le; try assumption; unfold real in *; lia).
    destruct O as [->| ->].
    - nra.
    - change (-1) with (- (1)) in E. rewrite vopp in E. nra. }
  exact (Final2.inv_exact c x y r V X MF Rx Ry NZ NE E P).
Qed.

Lemma next_max c : valid_cfg c ->
  (csp c = WithNanInf -> p_next c (maxreal c) = Ok (inf_of c false)) /\
  (csp c <> WithNanInf -> cN c = cH c -> cH c < 32 -> p_next c (maxreal c) = Ok (exceptional c)) /\
  (csp c <> WithNanInf -> cN c = cH c -> 32 <= cH c -> p_next c (maxreal c) = UB SignedOverflow) /\
  (csp c <> WithNanInf -> cN c < cH c ->
     p_next c (maxreal c) = Ok (2 ^ (cN c - 1)) /\ ~ pattern c (2 ^ (cN c - 1))).
Proof.
  intros V. vcb V. pose proof (maxreal_bounds c BN Bes) as MB.
  assert (G : p_next c (maxreal c) = bind (cadd (prom (tS c)) (maxreal c) 1) (fun r => Ok (deep c r))).
  { unfold p_next. rewrite P_MINNEG_val, P_MAXPOS_val by assumption.
    rewrite Z.gtb_ltb. destruct (Z.leb_spec (maxreal c) (- maxreal c)); [lia|]. rewrite Z.ltb_irrefl. reflexivity. }
  rewrite G. clear G MB. unfold exceptional, inf_of, pattern, maxreal.
  split; [|split; [|split]].
  - intros S. rewrite S. replace (2 ^ (cN c - 1) - 2 + 1) with (2 ^ (cN c - 1) - 1) by lia.
    pose proof (pow2_mono (cN c - 1) (cH c - 1) ltac:(lia)) as L. pow_pos 2 (cN c - 1).
    unfold cadd, arith. replace (2 ^ (cN c - 1) - 2 + 1) with (2 ^ (cN c - 1) - 1) by lia.
    assert (FT : isg (prom (tS c)) = true /\ fits (prom (tS c)) (2 ^ (cN c - 1) - 1) = true).
    { unfold tS, prom, fits, min_of, max_of, c_int, sint. cbn [iw isg].
      destruct (vc_H _ V) as [E|[E|[E|E]]]; rewrite E in *; cbn in *; split; auto;
      apply andb_true_iff; split; apply Z.leb_le; lia. }
    destruct FT as [F1 F2]. rewrite F1, F2. cbn [bind]. unfold deep, tS. rewrite cast_s_small by lia. reflexivity.
  - intros S E L. destruct (vc_H _ V) as [W|[W|[W|W]]]; try lia; rewrite E, W; unfold tS, deep, tS; rewrite W;
    destruct (csp c); try contradiction; reflexivity.
  - intros S E L. destruct (vc_H _ V) as [W|[W|[W|W]]]; try lia; rewrite E, W; unfold tS; rewrite W;
    destruct (csp c); try contradiction; reflexivity.
  - intros S L. pose proof (pow2_mono (cN c) (cH c - 1) ltac:(lia)) as L2. pow_pos 2 (cN c - 1).
    assert (D : 2 ^ cN c = 2 * 2 ^ (cN c - 1)) by (rewrite <- Z.pow_succ_r by lia; f_equal; lia).
    split; [|lia].
    replace (match csp c with WithNanInf => 2 ^ (cN c - 1) - 2 | _ => 2 ^ (cN c - 1) - 1 end) with (2 ^ (cN c - 1) - 1) by (destruct (csp c); try contradiction; reflexivity).
    unfold cadd, arith. replace (2 ^ (cN c - 1) - 1 + 1) with (2 ^ (cN c - 1)) by lia.
    assert (FT : isg (prom (tS c)) = true /\ fits (prom (tS c)) (2 ^ (cN c - 1)) = true).
    { rewrite D in L2. assert (PP : 0 < 2 ^ (cN c - 1)) by lia. clear - V L2 PP. generalize dependent (2 ^ (cN c - 1)). intros p L2 PP. assert (L3 : p + p <= 2 ^ (cH c - 1)) by lia. clear L2.
      unfold tS, prom, fits, min_of, max_of, c_int, sint. cbn [iw isg].
      destruct (vc_H _ V) as [E|[E|[E|E]]]; rewrite E in *; cbn in *; split; auto;
      apply andb_true_iff; split; apply Z.leb_le; lia. }
    destruct FT as [F1 F2]. rewrite F1, F2. cbn [bind]. unfold deep, tS. rewrite cast_s_small by lia. reflexivity.
Qed.

Lemma fma_one_room c a d : valid_cfg c -> exp_ok c -> mul_fits c -> real c a -> real c d ->
  (a <> 0 /\ d <> 0 \/ room c (value c a + value c d) ->
     p_fma c a (p_one c) d = p_add c a d /\ p_fma c (p_one c) a d = p_add c a d) /\
  (a = 0 \/ d = 0 -> ~ room c (value c a + value c d) ->
     p_fma c a (p_one c) d = UB ShiftCount /\ p_fma c (p_one c) a d = UB ShiftCount).
Proof.
  intros V X MF Ra Rd. pose proof (mul_fits_frac c MF) as FF. pose proof (one_real c V) as OR.
  assert (Z0 : (value c 0 == 0)%Q) by reflexivity.
  destruct (Z.eq_dec d 0) as [->|Nd].
  { assert (RE : room c (value c a + value c 0) <-> room c (value c a)) by (split; apply room_comp; rewrite Z0; ring).
    rewrite !fma_zero by (try rewrite one_val; assumption).
    destruct (neutral c a V X MF Ra) as [N1 [_ [_ [_ [_ [_ [_ [N2 N3]]]]]]]]. rewrite RE, N1. split.
    - intros [[_ ?]|R]; [contradiction|]. destruct (N2 R) as [N4 [N5 _]]. rewrite N4, N5. auto.
    - intros _ R. destruct (N3 R) as [N4 [N5 _]]. rewrite N4, N5. auto. }
  destruct (Z.eq_dec a 0) as [->|Na].
  2:{ split; [intros _; apply fma_one; assumption|intros [?|?]; contradiction]. }
  assert (RE : room c (value c 0 + value c d) <-> room c (value c d)) by (split; apply room_comp; rewrite Z0; ring).
  change (p_add c 0 d) with (@Ok Z d). rewrite RE.
  assert (G : p_fma c 0 (p_one c) d = bind (unpack c d) (pack_posit c) /\ p_fma c (p_one c) 0 d = bind (unpack c d) (pack_posit c)).
  { unfold p_fma. rewrite unpack_zero, unpack_one by assumption. cbn [bind u_mul u_isNaN utyp u_special utype_eqb orb].
    vcb V. pose proof FF as FF'. unfold frac_fits in FF'. rewrite <- gran_val in FF'.
    destruct (unpack_real c d 0 V ltac:(lia) ltac:(lia) Rd Nd) as [e1 [f1 [U1 _]]]. rewrite U1. auto. }
  destruct G as [-> ->].
  destruct (roundtrip c d V X FF (real_pat c d V Rd)) as [u [E [_ D]]].
  split.
  - intros [[? _]|R]; [contradiction|]. rewrite E. cbn [bind]. rewrite (D (or_intror R)). auto.
  - intros _ R.
    destruct (neutral c d V X MF Rd) as [_ [_ [_ [_ [_ [_ [_ [_ N3]]]]]]]].
    destruct (N3 R) as [_ [N5 _]].
    vcb V. pose proof MF as MF'. unfold mul_fits in MF'. rewrite <- gran_val in MF'.
    destruct (unpack_real c d 2 V ltac:(lia) MF' Rd Nd) as [e1 [f1 [U1 [Hf [He [M Vv]]]]]].
    destruct (emax_bound c V) as [B1 B2].
    unfold p_mul in N5. rewrite unpack_one, U1 in N5 by assumption. cbn [bind] in N5.
    rewrite u_mul_one_l in N5; try assumption; try lia; try (apply vc_F; assumption); try (apply c_E_width; assumption).
    rewrite U1. cbn [bind] in *. auto.
Qed.

Lemma fma_degenerate_room c a b d :
  valid_cfg c -> exp_ok c -> mul_fits c -> real c a -> real c b -> real c d ->
  p_fma c a b 0 = p_mul c a b /\
  (a <> 0 /\ d <> 0 \/ room c (value c a + value c d) ->
     p_fma c a (p_one c) d = p_add c a d /\ p_fma c (p_one c) a d = p_add c a d) /\
  (a = 0 \/ d = 0 -> ~ room c (value c a + value c d) ->
     p_fma c a (p_one c) d = UB ShiftCount /\ p_fma c (p_one c) a d = UB ShiftCount).
Proof. intros V X MF Ra Rb Rd. split; [apply fma_zero; assumption|apply fma_one_room; assumption]. Qed.

(** With an FT that only just holds the posit fraction, products and quotients are not truncations. *)
Lemma not_down c x v w : (0 < x)%Q -> real c w -> (0 < value c w)%Q -> (value c w <= x)%Q -> (value c v < value c w)%Q ->
  ~ rounds_tz c x v.
Proof.
  intros X R P L G [[Z0 _]|[[_ D]|[N _]]]; [lra| |lra].
  destruct D as (_ & _ & D & _). specialize (D w R P L). lra.
Qed.
Definition tight10 : cfg := Cfg 16 10 0 8 WithNan.
Lemma valid_tight10 : valid_cfg tight10. Proof. cfg_tac. Qed.
Lemma mul_narrow : exists c x r, valid_cfg c /\ exp_ok c /\ frac_fits c /\ roomy c /\ real c x /\
  p_mul c (p_one c) x = Ok r /\ r <> x /\ ~ rounds_tz c (value c (p_one c) * value c x) r.
Proof.
  exists tight10, 257, 256. split; [apply valid_tight10|]. do 4 (split; [ex|]).
  split; [reflexivity|]. split; [discriminate|].
  apply (not_down tight10 _ _ 257); ex.
Qed.
Lemma div_narrow : exists c x r, valid_cfg c /\ exp_ok c /\ frac_fits c /\ roomy c /\ real c x /\ (value c x == 129 # 128)%Q /\
  p_div c (p_one c) x = Ok r /\ (value c r == 1 # 2)%Q /\ ~ rounds_tz c (value c (p_one c) / value c x) r.
Proof.
  exists tight10, 257, 128. split; [apply valid_tight10|]. do 5 (split; [ex|]).
  split; [reflexivity|]. split; [reflexivity|].
  apply (not_down tight10 _ _ 254); ex.
Qed.
