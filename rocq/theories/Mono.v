(** Addition is monotone for operands of any signs. *)
From Coq Require Import ZArith QArith Qabs Lia Lqa Bool List.
From Verif Require Import Res CInt Bits Traits Unpacked Cfg Posit Spec QPow Core SpecLemmas Arith
  DecodeProof EncodeProof UOps UAdd Ops OpsAdd OpsUnary OpsUnary2 Specials Room Laws Configs Final1 Final2 Examples Final3 Fma Conv3 Misc2 Dot.
Open Scope Z_scope.

(** A magnitude cut to the unit of exponent [M]. *)
Definition cut (F M e f : Z) : Q := dy (sig2 F f / 2 ^ (M - e)) (M + 2 - F).

Lemma cut_exact F e f : is_width F -> f mod 4 = 0 -> (cut F e e f == uabs F e f)%Q.
Proof.
  intros W M. unfold cut. rewrite Z.sub_diag. change (2 ^ 0) with 1. rewrite Z.div_1_r. symmetry. apply uabs_sig2; assumption.
Qed.
Lemma cut_le F M e f : is_width F -> 0 <= f < 2 ^ F -> e <= M -> (cut F M e f <= uabs F e f)%Q.
Proof. intros. apply align_bounds; assumption. Qed.
Lemma cut_nonneg F M e f : is_width F -> 0 <= f < 2 ^ F -> e <= M -> (0 <= cut F M e f)%Q.
Proof.
  intros W H L. unfold cut. rewrite <- (dy_0 (M + 2 - F)). apply dy_le. pose proof (sig2_bounds F f W H). pose proof (is_width_pos F W).
  pow_pos 2 (M - e). pow_pos 2 (F - 2). apply Z.div_pos; lia.
Qed.

Lemma exp_le F e f e' f' : is_width F -> 0 <= f < 2 ^ F -> 0 <= f' < 2 ^ F -> (uabs F e f <= uabs F e' f')%Q -> e <= e'.
Proof.
  intros W H H' L. pose proof (is_width_pos F W). pose proof (Conv3.uabs_scale F e f ltac:(lia) H) as [S _]. pose proof (Conv3.uabs_scale F e' f' ltac:(lia) H') as [_ S'].
  assert (e < e' + 1) by (apply pow2_lt_inv; lra). lia.
Qed.

Lemma cut_mono F M e f e' f' : is_width F -> 0 <= f < 2 ^ F -> 0 <= f' < 2 ^ F -> e <= M -> e' <= M ->
  (uabs F e f <= uabs F e' f')%Q -> (cut F M e f <= cut F M e' f')%Q.
Proof.
  intros W H H' L L' LE. destruct (align_bounds F M e f W H L) as [A _]. destruct (align_bounds F M e' f' W H' L') as [_ B].
  unfold cut. apply dy_le. assert (K : sig2 F f / 2 ^ (M - e) < sig2 F f' / 2 ^ (M - e') + 1); [|lia].
  apply (dy_lt_inv _ _ (M + 2 - F)). lra.
Qed.

Lemma cut_coarser F M M' e f : is_width F -> 0 <= f < 2 ^ F -> e <= M -> M <= M' -> (cut F M' e f <= cut F M e f)%Q.
Proof.
  intros W H L L'. unfold cut. rewrite (dy_align _ (M' + 2 - F) (M + 2 - F)) by lia. apply dy_le.
  replace (M' + 2 - F - (M + 2 - F)) with (M' - M) by lia. replace (M' - e) with ((M - e) + (M' - M)) by lia.
  rewrite Z.pow_add_r by lia. pow_pos 2 (M - e). pow_pos 2 (M' - M). rewrite <- Z.div_div by lia.
  rewrite Z.mul_comm. apply Z.mul_div_le. lia.
Qed.

(** Difference of magnitudes as computed: both cut to the unit of the larger exponent. *)
Definition diff (F ea fa eb fb : Z) : Q := (cut F (Z.max ea eb) ea fa - cut F (Z.max ea eb) eb fb)%Q.

Lemma diff_mono F ea fa ea' fa' ed fd : is_width F ->
  0 <= fa < 2 ^ F -> 0 <= fa' < 2 ^ F -> 0 <= fd < 2 ^ F -> fa mod 4 = 0 -> fa' mod 4 = 0 -> fd mod 4 = 0 ->
  (uabs F ea fa <= uabs F ea' fa')%Q -> (diff F ea fa ed fd <= diff F ea' fa' ed fd)%Q.
Proof.
  intros W Ha Ha' Hd Ma Ma' Md L. pose proof (exp_le F ea fa ea' fa' W Ha Ha' L) as EL. unfold diff.
  destruct (Z_le_gt_dec ea' ed) as [C|C].
  - rewrite !Z.max_r by lia. pose proof (cut_mono F ed ea fa ea' fa' W Ha Ha' ltac:(lia) C L). lra.
  - rewrite (Z.max_l ea') by lia. rewrite (cut_exact F ea' fa') by assumption.
    destruct (Z_le_gt_dec ed ea) as [C'|C'].
    + rewrite (Z.max_l ea) by lia. rewrite cut_exact by assumption. pose proof (cut_coarser F ea ea' ed fd W Hd C' EL). lra.
    + rewrite (Z.max_r ea) by lia. rewrite (cut_exact F ed fd) by assumption.
      pose proof (cut_le F ed ea fa W Ha ltac:(lia)). pose proof (cut_le F ea' ed fd W Hd ltac:(lia)). lra.
Qed.
Lemma diff_zero F ea fa ed fd : is_width F -> 0 <= fa < 2 ^ F -> 0 <= fd < 2 ^ F -> (- uabs F ed fd <= diff F ea fa ed fd)%Q.
Proof.
  intros W Ha Hd. unfold diff. pose proof (cut_nonneg F (Z.max ea ed) ea fa W Ha ltac:(lia)).
  pose proof (cut_le F (Z.max ea ed) ed fd W Hd ltac:(lia)). lra.
Qed.

(** What p_add packs. *)
Lemma add_packs c a b r na ea fa nb eb fb : valid_cfg c -> exp_ok c -> a <> 0 -> b <> 0 ->
  unpack c a = Ok (U Regular na ea fa) -> unpack c b = Ok (U Regular nb eb fb) ->
  0 <= fa < 2 ^ cF c -> 0 <= fb < 2 ^ cF c -> - emax c <= ea <= emax c -> - emax c <= eb <= emax c ->
  p_add c a b = Ok r ->
  rounds_tz c (sgq na (cut (cF c) (Z.max ea eb) ea fa) + sgq nb (cut (cF c) (Z.max ea eb) eb fb)) r.
Proof.
  intros V X Na Nb U1 U2 Ha Hb Ea Eb P. vcb V. rewrite p_add_unfold, U1, U2 in P by assumption. cbn [bind] in P.
  pose proof (vc_F _ V) as WF. pose proof (c_E_width c V) as WE. pose proof (is_width_pos _ WF) as BF.
  pose proof (E_room c V) as ER. destruct (emax_bound c V) as [M1 M2].
  destruct (Z_lt_le_dec (Z.abs (ea - eb)) (pw (cF c))) as [NR|FR].
  2:{ rewrite u_add_ub in P by (assumption || lia). discriminate. }
  rewrite u_add_eq in P by (assumption || lia). unfold cut. set (M := Z.max ea eb) in *.
  assert (E4 : 2 ^ cF c = 4 * 2 ^ (cF c - 2)).
  { change 4 with (2 ^ 2). rewrite <- Z.pow_add_r by lia. f_equal. lia. }
  pose proof (sig2_bounds _ fa WF Ha) as SA. pose proof (sig2_bounds _ fb WF Hb) as SB.
  assert (DB : forall s n, 0 <= s -> 0 <= n -> 0 <= s / 2 ^ n <= s).
  { intros s n H0 H1. pow_pos 2 n. split; [apply Z.div_pos; lia|apply Z.div_le_upper_bound; nia]. }
  pose proof (DB (sig2 (cF c) fa) (M - ea) ltac:(lia) ltac:(lia)) as BA.
  pose proof (DB (sig2 (cF c) fb) (M - eb) ltac:(lia) ltac:(lia)) as BB.
  set (A := sig2 (cF c) fa / 2 ^ (M - ea)) in *. set (B := sig2 (cF c) fb / 2 ^ (M - eb)) in *. clearbody A B.
  pose proof (sgn_sum na nb A B (M + 2 - cF c) ltac:(lia) ltac:(lia)) as SG.
  pose proof (addfrac_le na nb A B ltac:(lia) ltac:(lia)) as FL.
  set (fr := addfrac na nb A B) in *. set (n := addneg na nb A B) in *. clearbody fr n.
  eapply rounds_tz_comp; try assumption; [exact SG|].
  destruct (Z.eq_dec fr 0) as [Z0|NZ].
  { subst fr. cbn in P. injection P as <-. left. split; [|reflexivity]. destruct n; cbn [sgq]; rewrite dy_0; reflexivity. }
  assert (BFr : 0 < fr < 2 ^ cF c) by lia.
  pose proof (Z.log2_nonneg fr) as LN. assert (LF : Z.log2 fr < cF c) by (apply Z.log2_lt_pow2; lia).
  destruct (Z_lt_le_dec (cF c - Z.log2 fr) (pw (cF c))) as [K|K].
  2:{ rewrite normalized_ub in P by (assumption || lia). discriminate. }
  destruct (u_normalized_spec (cF c) (c_E c) n (M + 1) fr WF WE BFr K ltac:(lia)) as [N1 [N2 N3]].
  rewrite N1 in P. cbn [bind] in P. apply pack_value in P; try assumption.
  eapply rounds_tz_comp; try assumption; [|exact P]. rewrite uvalue_uval, uval_abs by lia. apply sgq_comp.
  pose proof (norm_val (cF c) (M + 1) fr WF BFr) as NV. replace (M + 1 + 1 - cF c) with (M + 2 - cF c) in NV by lia. exact NV.
Qed.

Section M.
Variable c : cfg.
Hypothesis V : valid_cfg c.
Hypothesis X : exp_ok c.
Hypothesis MF : mul_fits c.

Lemma unpack4 v : real c v -> v <> 0 -> exists e f, unpack c v = Ok (U Regular (v <? 0) e f) /\ 0 <= f < 2 ^ cF c /\
  - emax c <= e <= emax c /\ f mod 4 = 0 /\ (value c v == sgq (v <? 0) (uabs (cF c) e f))%Q.
Proof using V MF.
  intros R N. unfold mul_fits in MF. rewrite <- gran_val in MF.
  destruct (unpack_real c v 2 V ltac:(lia) MF R N) as (e & f & U1 & H & E & M & VV). exists e, f.
  split; [assumption|]. split; [assumption|]. split; [assumption|]. split; [exact M|]. rewrite VV. apply uval_abs.
Qed.

Lemma zero_real : real c 0.
Proof using V.
  vcb V. assert (G : 2 ^ 2 <= 2 ^ (cN c - 1)) by (apply pow2_mono; lia). change (2 ^ 2) with 4 in G.
  unfold real, maxreal. destruct (csp c); lia.
Qed.
Lemma add_0_l d : p_add c 0 d = Ok d. Proof using. reflexivity. Qed.

(** Operands of sign opposite to [d]. *)
Lemma opp_pos a b d r s : real c a -> real c b -> real c d -> 0 <= a -> a <= b -> d < 0 ->
  p_add c a d = Ok r -> p_add c b d = Ok s -> r <= s.
Proof using V X MF.
  intros Ra Rb Rd A0 AB D P Q. vcb V. pose proof (vc_F _ V) as WF.
  destruct (Z.eq_dec b 0) as [->|Nb].
  { replace a with 0 in P by lia. rewrite add_0_l in P, Q. injection P as <-. injection Q as <-. lia. }
  destruct (unpack4 b Rb Nb) as (eb & fb & U2 & Hb & Eb & Mb & Vb).
  destruct (unpack4 d Rd ltac:(lia)) as (ed & fd & U3 & Hd & Ed & Md & Vd).
  pose proof (add_packs c b d s _ eb fb _ ed fd V X Nb ltac:(lia) U2 U3 Hb Hd Eb Ed Q) as RS.
  assert (Sb : (b <? 0) = false) by (apply Z.ltb_ge; lia). assert (Sd : (d <? 0) = true) by (apply Z.ltb_lt; lia).
  rewrite Sb in *. rewrite Sd in *. cbn [sgq] in *.
  destruct (Z.eq_dec a 0) as [->|Na].
  - rewrite add_0_l in P. injection P as <-.
    eapply (rounds_tz_mono c (value c d)); [assumption| |apply rounds_tz_exact; assumption|exact RS].
    rewrite Vd. exact (diff_zero (cF c) eb fb ed fd WF Hb Hd).
  - destruct (unpack4 a Ra Na) as (ea & fa & U1 & Ha & Ea & Ma & Va).
    pose proof (add_packs c a d r _ ea fa _ ed fd V X Na ltac:(lia) U1 U3 Ha Hd Ea Ed P) as RR.
    assert (Sa : (a <? 0) = false) by (apply Z.ltb_ge; lia). rewrite Sa in *. cbn [sgq] in *.
    refine (rounds_tz_mono c _ _ r s V _ RR RS).
    apply (diff_mono (cF c) ea fa eb fb ed fd); try assumption.
    rewrite <- Va, <- Vb. apply (value_le c BN Bes); pose proof (real_bounds c BN Bes _ Ra); pose proof (real_bounds c BN Bes _ Rb); lia.
Qed.
Lemma opp_neg a b d r s : real c a -> real c b -> real c d -> b <= 0 -> a <= b -> 0 < d ->
  p_add c a d = Ok r -> p_add c b d = Ok s -> r <= s.
Proof using V X MF.
  intros Ra Rb Rd B0 AB D P Q. vcb V. pose proof (vc_F _ V) as WF.
  destruct (Z.eq_dec a 0) as [->|Na].
  { replace b with 0 in Q by lia. rewrite add_0_l in P, Q. injection P as <-. injection Q as <-. lia. }
  destruct (unpack4 a Ra Na) as (ea & fa & U1 & Ha & Ea & Ma & Va).
  destruct (unpack4 d Rd ltac:(lia)) as (ed & fd & U3 & Hd & Ed & Md & Vd).
  pose proof (add_packs c a d r _ ea fa _ ed fd V X Na ltac:(lia) U1 U3 Ha Hd Ea Ed P) as RR.
  assert (Sa : (a <? 0) = true) by (apply Z.ltb_lt; lia). assert (Sd : (d <? 0) = false) by (apply Z.ltb_ge; lia).
  rewrite Sa in *. rewrite Sd in *. cbn [sgq] in *.
  destruct (Z.eq_dec b 0) as [->|Nb].
  - rewrite add_0_l in Q. injection Q as <-.
    eapply (rounds_tz_mono c _ (value c d)); [assumption| |exact RR|apply rounds_tz_exact; assumption].
    rewrite Vd. pose proof (diff_zero (cF c) ea fa ed fd WF Ha Hd) as DZ. unfold diff in DZ. lra.
  - destruct (unpack4 b Rb Nb) as (eb & fb & U2 & Hb & Eb & Mb & Vb).
    pose proof (add_packs c b d s _ eb fb _ ed fd V X Nb ltac:(lia) U2 U3 Hb Hd Eb Ed Q) as RS.
    assert (Sb : (b <? 0) = true) by (apply Z.ltb_lt; lia). rewrite Sb in *. cbn [sgq] in *.
    refine (rounds_tz_mono c _ _ r s V _ RR RS).
    assert (LV : (value c a <= value c b)%Q) by (apply (value_le c BN Bes); pose proof (real_bounds c BN Bes _ Ra); pose proof (real_bounds c BN Bes _ Rb); lia).
    rewrite Va, Vb in LV.
    pose proof (diff_mono (cF c) eb fb ea fa ed fd WF Hb Ha Hd Mb Ma Md ltac:(lra)) as DM. unfold diff in DM. lra.
Qed.

Lemma add_mono_any a b d r s : real c a -> real c b -> real c d -> a <= b ->
  p_add c a d = Ok r -> p_add c b d = Ok s -> r <= s.
Proof using V X MF.
  intros Ra Rb Rd AB P Q.
  destruct (Z.lt_trichotomy d 0) as [D|[->|D]].
  - destruct (Z_le_gt_dec 0 a) as [A|A]; [apply (opp_pos a b d); assumption|].
    destruct (Z_le_gt_dec b 0) as [B|B].
    + apply (p_add_mono c a b d); try assumption. lia.
    + transitivity d.
      * apply (p_add_mono c a 0 d); try assumption; try reflexivity; try lia. apply zero_real.
      * apply (opp_pos 0 b d); try assumption; try reflexivity; try lia. apply zero_real.
  - assert (E : forall v, p_add c v 0 = Ok v) by (intros v; unfold p_add, iszero; destruct (Z.eqb_spec v 0); [subst; reflexivity|reflexivity]).
    rewrite E in P, Q. injection P as <-. injection Q as <-. assumption.
  - destruct (Z_le_gt_dec b 0) as [B|B]; [apply (opp_neg a b d); assumption|].
    destruct (Z_le_gt_dec 0 a) as [A|A].
    + apply (p_add_mono c a b d); try assumption. lia.
    + transitivity d.
      * apply (opp_neg a 0 d); try assumption; try reflexivity; try lia. apply zero_real.
      * apply (p_add_mono c 0 b d); try assumption; try reflexivity; try lia. apply zero_real.
Qed.

Lemma add_result_real a b r : real c a -> real c b -> p_add c a b = Ok r -> real c r.
Proof using V X MF.
  intros Ra Rb P. vcb V. destruct (Z.eq_dec a 0) as [->|Na]; [rewrite add_0_l in P; injection P as <-; assumption|].
  destruct (Z.eq_dec b 0) as [->|Nb].
  { unfold p_add, iszero in P. destruct (Z.eqb_spec a 0); [contradiction|]. cbn in P. injection P as <-. assumption. }
  destruct (unpack4 a Ra Na) as (ea & fa & U1 & Ha & Ea & Ma & Va). destruct (unpack4 b Rb Nb) as (eb & fb & U2 & Hb & Eb & Mb & Vb).
  pose proof (add_packs c a b r _ ea fa _ eb fb V X Na Nb U1 U2 Ha Hb Ea Eb P) as RR.
  eapply rounds_tz_real; [exact BN|exact Bes|exact RR].
Qed.

Lemma add_monotone a b d : real c a -> real c b -> real c d -> (value c a <= value c b)%Q ->
  (forall r s, p_add c a d = Ok r -> p_add c b d = Ok s -> p_le c r s = true) /\
  (forall r s, p_add c d a = Ok r -> p_add c d b = Ok s -> p_le c r s = true) /\
  (forall r s, p_sub c a d = Ok r -> p_sub c b d = Ok s -> p_le c r s = true) /\
  (forall r s, p_sub c d b = Ok r -> p_sub c d a = Ok s -> p_le c r s = true).
Proof using V X MF.
  intros Ra Rb Rd L. vcb V.
  assert (ORD : forall r s, real c r -> real c s -> r <= s -> p_le c r s = true).
  { intros r s Rr Rs LE. apply (compare_real c r s V Rr Rs). apply real_value_le; assumption. }
  assert (LZ : forall a b, real c a -> real c b -> (value c a <= value c b)%Q -> a <= b).
  { intros x y Rx Ry G. apply Z.nlt_ge. intros H. pose proof (real_bounds c BN Bes _ Rx). pose proof (real_bounds c BN Bes _ Ry).
    assert ((value c y < value c x)%Q) by (apply (value_lt c BN Bes); lia). lra. }
  assert (MAIN : forall a b d r s, real c a -> real c b -> real c d -> (value c a <= value c b)%Q ->
    p_add c a d = Ok r -> p_add c b d = Ok s -> p_le c r s = true).
  { intros x y z r s Rx Ry Rz G P Q. apply ORD; [eapply (add_result_real x z); eassumption|eapply (add_result_real y z); eassumption|].
    apply (add_mono_any x y z); auto. }
  assert (NN : forall v, real c v -> ~ is_nan c v) by (intros v Rv; apply real_nn; assumption).
  assert (CO : forall x y, real c x -> real c y -> p_add c x y = p_add c y x).
  { intros x y Rx Ry. apply commute; auto; apply real_pat; assumption. }
  split; [|split; [|split]].
  - intros r s. apply MAIN; assumption.
  - intros r s P Q. rewrite CO in P, Q by assumption. apply (MAIN a b d); assumption.
  - intros r s P Q. unfold p_sub in P, Q. destruct (neg_real c d V Rd) as (d' & E & Rd' & _ & _). rewrite E in P, Q. cbn [bind] in P, Q.
    apply (MAIN a b d'); assumption.
  - intros r s P Q. unfold p_sub in P, Q. destruct (neg_real c a V Ra) as (a' & E & Ra' & Va & _). destruct (neg_real c b V Rb) as (b' & E' & Rb' & Vb & _).
    rewrite E in Q. rewrite E' in P. cbn [bind] in P, Q. rewrite CO in P, Q by assumption.
    apply (MAIN b' a' d); try assumption. rewrite Va, Vb. lra.
Qed.
End M.
