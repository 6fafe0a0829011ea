(** Conversion between posit formats. *)
From Coq Require Import ZArith QArith Qabs Lia Lqa Bool List.
From Verif Require Import Res CInt Bits Traits Unpacked Cfg Posit Posit2 Spec QPow Core SpecLemmas Arith
  DecodeProof EncodeProof UOps UAdd Ops OpsAdd OpsUnary OpsUnary2 Specials Room Laws Configs Final1 Final2 Examples Final3.
Open Scope Z_scope.

Lemma convert_total c c' v : valid_cfg c -> valid_cfg c' -> exp_ok c' -> frac_fits c -> same_unpacked c c' -> real c v ->
  (room c' (value c v) -> exists r, p_convert c c' v = Ok r /\ rounds_tz c' (value c v) r) /\
  (~ room c' (value c v) -> p_convert c c' v = UB ShiftCount).
Proof.
  intros V V' X FF [SF SE] R. vcb V. unfold p_convert.
  destruct (Z.eq_dec v 0) as [->|N].
  { rewrite unpack_zero by assumption. cbn [bind]. split.
    - intros _. exists 0. split; [reflexivity|]. left. split; reflexivity.
    - intros NR. exfalso. apply NR. left. reflexivity. }
  unfold frac_fits in FF. rewrite <- gran_val in FF.
  destruct (unpack_real c v 0 V ltac:(lia) ltac:(lia) R N) as (e & f & U1 & H & E & _ & VV). rewrite U1. cbn [bind].
  pose proof (is_width_pos _ (vc_F _ V)) as BF. rewrite SF in *.
  destruct (pack_total c' (v <? 0) e f V' X H) as [A B].
  assert (SC : scale (value c v) e) by (eapply scale_comp; [symmetry; exact VV|apply uval_scale; [lia|assumption]]).
  split.
  - intros RM. assert (RM' : pack_room c' e).
    { destruct RM as [Z0|[e' [S' R']]]; [exfalso; apply (scale_nz _ _ SC); exact Z0|]. rewrite (scale_unique _ _ _ SC S'). exact R'. }
    destruct (A RM') as (r & O & RR). exists r. split; [exact O|]. vcb V'.
    eapply rounds_tz_comp; try assumption; [|exact RR]. rewrite uvalue_uval by lia. symmetry. exact VV.
  - intros NR. apply B. intros RM. apply NR. right. exists e. split; assumption.
Qed.

Lemma convert_specials c c' v : valid_cfg c -> valid_cfg c' -> 
  p_convert c c' 0 = Ok 0 /\ (is_nan c v -> p_convert c c' v = Ok (exceptional c')) /\
  (is_inf c v -> p_convert c c' v = Ok (inf_of c' (v <? 0))).
Proof.
  intros V V'. unfold p_convert. split; [rewrite unpack_zero by assumption; reflexivity|]. split; intros H.
  - rewrite unpack_nan by assumption. apply (pack_specials c' false 0 0 V').
  - rewrite unpack_inf by assumption. apply (pack_specials c' (v <? 0) 0 0 V').
Qed.

Lemma convert_back c c' v w r : valid_cfg c -> valid_cfg c' -> exp_ok c -> exp_ok c' -> frac_fits c -> frac_fits c' -> same_unpacked c c' -> real c v ->
  (exists x, real c' x /\ (value c' x == value c v)%Q) -> p_convert c c' v = Ok w -> p_convert c' c w = Ok r ->
  (value c' w == value c v)%Q /\ r = v.
Proof.
  intros V V' X X' FF FF' [SF SE] R [x [Rx Ex]] P Q. vcb V'.
  assert (RD : room c' (value c v) \/ ~ room c' (value c v)).
  { destruct (Z.eq_dec v 0) as [->|N]; [left; left; reflexivity|].
    destruct (scale_of c v V FF R N) as [e S].
    assert (D : pack_room c' e \/ ~ pack_room c' e) by (unfold pack_room; cbv zeta; lia).
    destruct D as [D|D]; [left; right; eauto|right]. intros [Z0|[e' [S' D']]]; [exact (scale_nz _ _ S Z0)|].
    apply D. rewrite (scale_unique _ _ _ S S'). exact D'. }
  destruct (convert_total c c' v V V' X' FF (conj SF SE) R) as [A B]. destruct RD as [RM|NR]; [|rewrite (B NR) in P; discriminate].
  destruct (A RM) as (w' & O & RR). rewrite O in P. injection P as ->.
  assert (EW : w = x).
  { apply (rounds_tz_unique c' BN Bes (value c v)); [exact RR|]. eapply rounds_tz_comp; try assumption; [exact Ex|]. apply rounds_tz_exact; assumption. }
  subst x. split; [exact Ex|].
  destruct (convert_total c' c w V' V X FF' (conj (eq_sym SF) (eq_sym SE)) Rx) as [A' B'].
  assert (RD : room c (value c' w) \/ ~ room c (value c' w)).
  { destruct (Z.eq_dec w 0) as [->|N]; [left; left; reflexivity|].
    destruct (scale_of c' w V' FF' Rx N) as [e S].
    assert (D : pack_room c e \/ ~ pack_room c e) by (unfold pack_room; cbv zeta; lia).
    destruct D as [D|D]; [left; right; eauto|right]. intros [Z0|[e' [S' D']]]; [exact (scale_nz _ _ S Z0)|].
    apply D. rewrite (scale_unique _ _ _ S S'). exact D'. }
  destruct RD as [RM'|NR]; [|rewrite (B' NR) in Q; discriminate]. destruct (A' RM') as (r' & O' & RR'). rewrite O' in Q. injection Q as ->.
  vcb V. apply (rounds_tz_unique c BN0 Bes0 (value c v)); [|apply rounds_tz_exact; assumption].
  eapply rounds_tz_comp; try assumption; [exact Ex|exact RR'].
Qed.

Lemma convert_rounds c c' v r : valid_cfg c -> valid_cfg c' -> exp_ok c' -> frac_fits c -> same_unpacked c c' -> real c v ->
  p_convert c c' v = Ok r -> rounds_tz c' (value c v) r.
Proof.
  intros V V' X FF SU R P. destruct (Z.eq_dec v 0) as [->|N].
  { unfold p_convert in P. rewrite unpack_zero in P by assumption. cbn in P. injection P as <-. left. split; reflexivity. }
  destruct (convert_total c c' v V V' X FF SU R) as [A B].
  destruct (scale_of c v V FF R N) as [e S].
  assert (D : pack_room c' e \/ ~ pack_room c' e) by (unfold pack_room; cbv zeta; lia).
  destruct D as [D|D].
  - destruct (A (or_intror (ex_intro _ e (conj S D)))) as (w & O & RR). rewrite O in P. injection P as ->. exact RR.
  - rewrite B in P; [discriminate|]. intros [Z0|[e' [S' D']]]; [exact (scale_nz _ _ S Z0)|].
    apply D. rewrite (scale_unique _ _ _ S S'). exact D'.
Qed.

Lemma convert_mono c c' v w r s : valid_cfg c -> valid_cfg c' -> exp_ok c' -> frac_fits c -> same_unpacked c c' -> real c v -> real c w ->
  (value c v <= value c w)%Q -> p_convert c c' v = Ok r -> p_convert c c' w = Ok s -> (value c' r <= value c' s)%Q.
Proof.
  intros V V' X FF SU Rv Rw L P Q. pose proof (convert_rounds c c' v r V V' X FF SU Rv P) as A. pose proof (convert_rounds c c' w s V V' X FF SU Rw Q) as B.
  vcb V'. pose proof (rounds_tz_mono c' _ _ r s V' L A B) as LE.
  pose proof (real_bounds c' BN Bes _ (rounds_tz_real c' BN Bes _ _ A)). pose proof (real_bounds c' BN Bes _ (rounds_tz_real c' BN Bes _ _ B)).
  apply (value_le c' BN Bes); lia.
Qed.

(** Truncating in two steps is truncating once when the middle format has all numbers of the last one. *)
Lemma down_pos_two c c' x w r : (forall v, real c' v -> exists u, real c u /\ (value c u == value c' v)%Q) ->
  down_pos c x w -> down_pos c' (value c w) r -> down_pos c' x r.
Proof.
  intros SUB (Rw & Pw & Mw & Ew) (Rr & Pr & Mr & Er). split; [assumption|]. split; [assumption|]. split.
  - intros y Ry Py Ly. destruct (SUB y Ry) as (u & Ru & Eu). apply Mr; try assumption.
    rewrite <- Eu. apply Mw; [assumption|lra|lra].
  - destruct Ew as [L|MIN].
    + destruct Er as [L'|MIN']; [left; lra|right; exact MIN'].
    + destruct Er as [L'|MIN']; [|right; exact MIN'].
      destruct (SUB r Rr) as (u & Ru & Eu). pose proof (MIN u Ru ltac:(lra)) as G.
      right. intros y Ry Py. destruct (SUB y Ry) as (t & Rt & Et). pose proof (MIN t Rt ltac:(lra)). lra.
Qed.
Lemma rounds_two c c' x w r : valid_cfg c -> (forall v, real c' v -> exists u, real c u /\ (value c u == value c' v)%Q) ->
  rounds_tz c x w -> rounds_tz c' (value c w) r -> rounds_tz c' x r.
Proof.
  intros V SUB [[Z ->]|[[P D]|[P D]]] RR.
  - destruct RR as [[_ ->]|[[Q _]|[Q _]]].
    + left. auto.
    + exfalso. vcb V. rewrite v0 in Q. lra.
    + exfalso. vcb V. rewrite v0 in Q. lra.
  - pose proof (proj1 (proj2 D)) as Pw. destruct RR as [[Q _]|[[Q D']|[Q _]]]; [exfalso; lra| |exfalso; lra].
    right. left. split; [assumption|]. eapply down_pos_two; eassumption.
  - pose proof (proj1 (proj2 D)) as Pw. rewrite vopp in Pw. destruct RR as [[Q _]|[[Q _]|[Q D']]]; [exfalso; lra|exfalso; lra|].
    right. right. split; [assumption|]. eapply (down_pos_two c c' (- x) (- w)); [exact SUB|exact D|].
    destruct D' as (A & B & C & E). split; [assumption|]. split; [assumption|]. split.
    + intros y Ry Py Ly. apply C; try assumption. rewrite vopp in Ly. exact Ly.
    + destruct E as [E|E]; [left; rewrite (vopp c w); exact E|right; exact E].
Qed.

Lemma convert_two c1 c2 c3 v w r s : valid_cfg c1 -> valid_cfg c2 -> valid_cfg c3 -> exp_ok c2 -> exp_ok c3 -> frac_fits c1 -> frac_fits c2 ->
  same_unpacked c1 c2 -> same_unpacked c2 c3 -> real c1 v ->
  (forall x, real c3 x -> exists u, real c2 u /\ (value c2 u == value c3 x)%Q) ->
  p_convert c1 c2 v = Ok w -> p_convert c2 c3 w = Ok r -> p_convert c1 c3 v = Ok s -> r = s.
Proof.
  intros V1 V2 V3 X2 X3 F1 F2 S1 S2 R SUB P Q T. vcb V2.
  pose proof (convert_rounds c1 c2 v w V1 V2 X2 F1 S1 R P) as A. pose proof (rounds_tz_real c2 BN Bes _ _ A) as Rw.
  pose proof (convert_rounds c2 c3 w r V2 V3 X3 F2 S2 Rw Q) as B.
  assert (S3 : same_unpacked c1 c3) by (destruct S1, S2; split; congruence).
  pose proof (convert_rounds c1 c3 v s V1 V3 X3 F1 S3 R T) as C.
  vcb V3. apply (rounds_tz_unique c3 BN0 Bes0 (value c1 v)); [|exact C]. exact (rounds_two c2 c3 _ w r V2 SUB A B).
Qed.

(** Appending zeros does not change the value. *)
Section Widen.
Variables (N k : Z).
Hypothesis (HN : 3 <= N) (Hk : 0 <= k).

Lemma base_widen r : inreg N r -> base (N + k) r = base N r * 2 ^ k.
Proof using HN Hk.
  unfold inreg, base. intros R. destruct (Z.leb_spec 0 r).
  - rewrite Z.mul_sub_distr_r, <- !Z.pow_add_r by lia. f_equal; f_equal; lia.
  - rewrite <- Z.pow_add_r by lia. f_equal. lia.
Qed.
Lemma reg_widen p : 1 <= p < 2 ^ (N - 1) -> reg (N + k) (p * 2 ^ k) = reg N p.
Proof using HN Hk.
  intros P. destruct (reg_spec N HN p P) as [R B]. apply reg_unique; [lia|unfold inreg in *; lia|].
  rewrite base_widen by assumption. pow_pos 2 k. unfold cnt in *. destruct (Z.eqb_spec (reg N p) (N - 2)) as [E|E].
  - destruct (Z.eqb_spec (reg N p) (N + k - 2)) as [E'|E'].
    + assert (k = 0) by lia. subst k. change (2 ^ 0) with 1. lia.
    + assert (SF : sft (reg N p) = N - 2) by (unfold sft; destruct (Z.leb_spec 0 (reg N p)); lia). rewrite SF.
      assert (p = base N (reg N p)) by lia. rewrite <- H0. pow_pos 2 (N + k - 3 - (N - 2)). lia.
  - destruct (Z.eqb_spec (reg N p) (N + k - 2)) as [E'|E']; [unfold inreg in R; lia|].
    destruct (sft_bound N HN _ R) as (S0 & S1 & S2). specialize (S1 E).
    replace (N + k - 3 - sft (reg N p)) with ((N - 3 - sft (reg N p)) + k) by lia. rewrite Z.pow_add_r by lia. nia.
Qed.
Lemma pdec_widen p : 1 <= p < 2 ^ (N - 1) -> pdec (N + k) (p * 2 ^ k) = pdec N p * 2 ^ k.
Proof using HN Hk.
  intros P. destruct (reg_spec N HN p P) as [R B]. unfold pdec. rewrite reg_widen, base_widen by assumption.
  replace (N + k - 3) with ((N - 3) + k) by lia. rewrite Z.pow_add_r by lia. ring.
Qed.
End Widen.

Lemma value_widen c c' v : valid_cfg c -> valid_cfg c' -> ces c = ces c' -> cN c <= cN c' -> pattern c v -> v <> exceptional c ->
  (value c' (v * 2 ^ (cN c' - cN c)) == value c v)%Q.
Proof.
  intros V V' ES L P NE. vcb V. vcb V'. unfold pattern, exceptional in *.
  set (k := cN c' - cN c). assert (EN : cN c' = cN c + k) by (unfold k; lia). assert (Hk : 0 <= k) by lia. clearbody k. pow_pos 2 k.
  assert (EP : 2 ^ (cN c' - 1) = 2 ^ (cN c - 1) * 2 ^ k) by (rewrite <- Z.pow_add_r by lia; f_equal; lia).
  assert (POS : forall p, 1 <= p < 2 ^ (cN c - 1) -> (value c' (p * 2 ^ k) == value c p)%Q).
  { intros p B. rewrite (value_pos_lval c' BN0 Bes0) by (rewrite EP; nia). rewrite (value_pos_lval c BN Bes) by assumption.
    rewrite EN, pdec_widen by lia.
    assert (EG : gran c' = gran c + k) by (rewrite !gran_val; lia). rewrite EG. apply lval_refine; [apply gran_nonneg; assumption|assumption]. }
  destruct (Z.lt_trichotomy v 0) as [S|[->|S]].
  - replace (v * 2 ^ k) with (- ((- v) * 2 ^ k)) by ring. rewrite vopp, (POS (- v)) by lia. rewrite vopp. ring.
  - rewrite Z.mul_0_l. reflexivity.
  - apply POS. lia.
Qed.

Lemma real_widen c c' v : valid_cfg c -> valid_cfg c' -> cN c <= cN c' -> csp c = WithNanInf \/ csp c' <> WithNanInf \/ cN c < cN c' -> real c v -> real c' (v * 2 ^ (cN c' - cN c)).
Proof.
  intros V V' L SP R. vcb V. vcb V'. set (k := cN c' - cN c). assert (Hk : 0 <= k) by lia. pow_pos 2 k.
  assert (EP : 2 ^ (cN c' - 1) = 2 ^ (cN c - 1) * 2 ^ k) by (rewrite <- Z.pow_add_r by lia; f_equal; lia).
  assert (K2 : cN c < cN c' -> 2 <= 2 ^ k) by (intros; change 2 with (2 ^ 1) at 1; apply pow2_mono; lia).
  assert (KB : Z.abs v <= 2 ^ (cN c - 1) - 1 /\ (csp c = WithNanInf -> Z.abs v <= 2 ^ (cN c - 1) - 2)).
  { unfold real, maxreal in R. destruct (csp c); split; intros; try discriminate; lia. }
  destruct KB as [K0 K1].
  assert (G : Z.abs (v * 2 ^ k) <= 2 ^ (cN c' - 1) - 1 /\ (csp c' = WithNanInf -> Z.abs (v * 2 ^ k) <= 2 ^ (cN c' - 1) - 2)).
  { rewrite EP, Z.abs_mul, (Z.abs_eq (2 ^ k)) by lia. split; [nia|]. intros SP'. destruct SP as [SP|[SP|SP]]; [specialize (K1 SP); nia|contradiction|].
    specialize (K2 SP). nia. }
  destruct G as [G0 G1]. unfold real, maxreal. destruct (csp c'); try specialize (G1 eq_refl); lia.
Qed.

Lemma convert_widen c c' v r : valid_cfg c -> valid_cfg c' -> exp_ok c' -> frac_fits c -> same_unpacked c c' -> ces c = ces c' -> cN c <= cN c' ->
  csp c = WithNanInf \/ csp c' <> WithNanInf \/ cN c < cN c' -> real c v ->
  (value c' (v * 2 ^ (cN c' - cN c)) == value c v)%Q /\ real c' (v * 2 ^ (cN c' - cN c)) /\
  (p_convert c c' v = Ok r -> r = v * 2 ^ (cN c' - cN c)).
Proof.
  intros V V' X FF SU ES L SP R. vcb V. vcb V'.
  assert (E : (value c' (v * 2 ^ (cN c' - cN c)) == value c v)%Q).
  { apply value_widen; try assumption; [apply real_pat; assumption|]. unfold exceptional. pose proof (real_bounds c BN Bes _ R). lia. }
  pose proof (real_widen c c' v V V' L SP R) as RW. split; [exact E|]. split; [exact RW|]. intros P.
  pose proof (convert_rounds c c' v r V V' X FF SU R P) as A.
  apply (rounds_tz_unique c' BN0 Bes0 (value c v)); [exact A|]. eapply rounds_tz_comp; try assumption; [exact E|]. apply rounds_tz_exact; assumption.
Qed.
