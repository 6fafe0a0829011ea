(** Programs over formats of small range run without undefined behaviour. *)
From Coq Require Import ZArith QArith Lqa Lia Bool List.
From Verif Require Import Res CInt Bits Traits Cfg Spec SpecFloat Unpacked Posit Posit2 QPow Core SpecLemmas Arith DecodeProof EncodeProof Room Ops OpsAdd OpsUnary OpsUnary2
  Final1 Final2 Final3 Final4 Conv1 Conv2 Configs TabProof5 Conv3 Laws Misc4 Examples Acc2 SpecProg Prog1 Prog2.
Import ListNotations.
Open Scope Z_scope.

Lemma scale_bounds c v e : valid_cfg c -> real c v -> scale (value c v) e -> - (cN c - 2) * 2 ^ ces c <= e <= maxk c * 2 ^ ces c.
Proof.
  intros V R S. vcb V. pose proof (maxreal_bounds c BN Bes) as MB. unfold real in R.
  assert (P : forall w, 0 < w <= maxreal c -> scale (value c w) e -> - (cN c - 2) * 2 ^ ces c <= e <= maxk c * 2 ^ ces c).
  { intros w W Sw. pose proof (value_le c BN Bes 1 w ltac:(lia) ltac:(lia) ltac:(lia)) as L1. pose proof (value_le c BN Bes w (maxreal c) ltac:(lia) ltac:(lia) ltac:(lia)) as L2.
    rewrite (one_value c V) in L1. rewrite (maxreal_value c V) in L2. pose proof (pow2_pos (- (cN c - 2) * 2 ^ ces c)) as PP.
    destruct (scale_lo _ _ (Qlt_le_trans _ _ _ PP L1) Sw) as [S1 S2]. split.
    - apply Z.lt_succ_r. apply pow2_lt_inv. change (Z.succ e) with (e + 1). eapply Qle_lt_trans; [exact L1|exact S2].
    - destruct (Z_lt_le_dec (maxk c * 2 ^ ces c) e) as [G|G]; [exfalso|exact G]. pose proof (pow2_lt _ _ G). lra. }
  destruct (Z.eq_dec v 0) as [->|NZ]; [exfalso; apply (scale_nz _ _ S), value_0; assumption|].
  destruct (Z_lt_le_dec 0 v); [apply (P v); [lia|exact S]|]. apply (P (- v)); [lia|]. apply (OpsAdd.scale_comp (- value c v)); [rewrite value_opp by assumption; reflexivity|]. apply scale_opp. exact S.
Qed.
Lemma near_range c a b : valid_cfg c -> (cN c - 2 + maxk c) * 2 ^ ces c < Z.max 32 (cF c) -> real c a -> real c b -> near c (value c a) (value c b).
Proof. intros V S Ra Rb ea eb Sa Sb. pose proof (scale_bounds c a ea V Ra Sa). pose proof (scale_bounds c b eb V Rb Sb). lia. Qed.
Lemma ends_far c : valid_cfg c -> Z.max 32 (cF c) <= (cN c - 2 + maxk c) * 2 ^ ces c -> ~ near c (value c (maxreal c)) (value c 1).
Proof.
  intros V L. vcb V. pow_pos 2 (ces c). apply (far_by c _ _ (maxk c * 2 ^ ces c) (- (cN c - 2) * 2 ^ ces c)).
  - apply (OpsAdd.scale_comp (pow2 (maxk c * 2 ^ ces c))); [symmetry; apply maxreal_value; exact V|apply scale_pow2].
  - apply (OpsAdd.scale_comp (pow2 (- (cN c - 2) * 2 ^ ces c))); [symmetry; apply one_value; exact V|apply scale_pow2].
  - assert (maxk c >= 0) by (unfold maxk; destruct (spec_eqb _ _); lia). lia.
Qed.

Section ops.
Context (c : cfg) (V : valid_cfg c) (X : exp_ok c) (Rm : roomy c).
Notation F := (cF c).

Lemma unpack_def v : pattern c v -> exists u, unpack c v = Ok u /\ uok F u /\ (utyp u = Regular -> real c v /\ v <> 0).
Proof using V.
  intros P. destruct (classify c v V P) as [[E U1]|[[E U1]|[[E U1]|(R & NZ & _)]]].
  1-3: eexists; split; [exact U1|]; split; [apply (unpack_ok c V v _ P U1)|intros D; discriminate D].
  destruct (decode_trunc c v V R NZ) as (e & f & U1 & B & _). eexists. split; [exact U1|]. split; [exact B|auto].
Qed.
Lemma pack_def u : uok F u -> exists r, pack_posit c u = Ok r.
Proof using V X Rm.
  intros B. destruct u as [t n e f]. unfold uok in B. cbn [ufrac] in B. destruct (pack_specials c n e f V) as (Z1 & Z2 & Z3). destruct t; eauto.
  apply EncodeProof.pack_defined; assumption.
Qed.
(** An operation with an operand that is not a Regular number executes no arithmetic. *)
Definition tri (f : Z -> Z -> unpacked -> unpacked -> res unpacked) : Prop :=
  forall E a b, (utyp a = Regular -> utyp b = Regular -> False) -> exists r, f F E a b = Ok r.
Lemma add_tri : tri u_add.
Proof using. intros E [[] n e f] [[] n' e' f'] H; cbn [utyp] in H; try (exfalso; apply H; reflexivity); unfold u_add; cbn [utyp uneg]; try destruct (Bool.eqb n n'); eexists; reflexivity. Qed.
Lemma mul_tri : tri u_mul.
Proof using. intros E [[] n e f] [[] n' e' f'] H; cbn [utyp] in H; try (exfalso; apply H; reflexivity); unfold u_mul; cbn [utyp uneg]; try destruct (xorb n n'); eexists; reflexivity. Qed.
Lemma div_tri : tri u_div.
Proof using. intros E [[] n e f] [[] n' e' f'] H; cbn [utyp] in H; try (exfalso; apply H; reflexivity); unfold u_div; cbn [utyp uneg]; try destruct (xorb n n'); eexists; reflexivity. Qed.
Lemma typ_dec (u : unpacked) : utyp u = Regular \/ utyp u <> Regular.
Proof using. destruct (utyp u); auto; right; discriminate. Qed.

Lemma mul_def a b : mul_fits c -> pattern c a -> pattern c b -> exists r, p_mul c a b = Ok r.
Proof using V X Rm.
  intros M A B. destruct (unpack_def a A) as (ua & Ua & A1 & A2). destruct (unpack_def b B) as (ub & Ub & B1 & B2).
  destruct (typ_dec ua) as [Ta|Ta]; [destruct (typ_dec ub) as [Tb|Tb]|].
  1: { apply p_mul_defined; try assumption; [apply (A2 Ta)|apply (B2 Tb)]. }
  all: unfold p_mul; rewrite Ua, Ub; cbn [bind]; destruct (mul_tri (c_E c) ua ub) as [m E]; [intros; congruence|]; rewrite E; cbn [bind]; apply pack_def; apply (umul_ok _ _ _ _ _ (F_nonneg c V) A1 E).
Qed.
Lemma div_def a b : mul_fits c -> pattern c a -> pattern c b -> exists r, p_div c a b = Ok r.
Proof using V X Rm.
  intros M A B. destruct (unpack_def a A) as (ua & Ua & A1 & A2). destruct (unpack_def b B) as (ub & Ub & B1 & B2).
  destruct (typ_dec ua) as [Ta|Ta]; [destruct (typ_dec ub) as [Tb|Tb]|].
  1: { apply p_div_defined; try assumption; [apply (A2 Ta)|apply (B2 Tb)|apply (B2 Tb)]. }
  all: unfold p_div; rewrite Ua, Ub; cbn [bind]; destruct (div_tri (c_E c) ua ub) as [m E]; [intros; congruence|]; rewrite E; cbn [bind]; apply pack_def; apply (udiv_ok _ _ _ _ _ (F_nonneg c V) A1 E).
Qed.
Lemma add_def a b : add_fits c -> (cN c - 2 + maxk c) * 2 ^ ces c < Z.max 32 (cF c) -> pattern c a -> pattern c b -> exists r, p_add c a b = Ok r.
Proof using V X Rm.
  intros M S A B. destruct (unpack_def a A) as (ua & Ua & A1 & A2). destruct (unpack_def b B) as (ub & Ub & B1 & B2).
  destruct (typ_dec ua) as [Ta|Ta]; [destruct (typ_dec ub) as [Tb|Tb]|].
  1: { destruct (proj1 (add_total c a b V X M (proj1 (A2 Ta)) (proj1 (B2 Tb)))) as (r & E & _); [|eauto]. left. split; [apply near_range; [exact V|exact S|apply (A2 Ta)|apply (B2 Tb)]|apply roomy_room_up; assumption]. }
  all: unfold p_add; destruct (iszero a); [eauto|]; destruct (iszero b); [eauto|]; rewrite Ua, Ub; cbn [bind]; destruct (add_tri (c_E c) ua ub) as [m E]; [intros; congruence|]; rewrite E; cbn [bind];
    apply pack_def; apply (uadd_ok _ _ _ _ _ (F_nonneg c V) A1 B1 E).
Qed.
Lemma inv_def v : mul_fits c -> pattern c v -> exists r, p_inv c v = Ok r.
Proof using V X Rm.
  intros M P. destruct (pattern_kind c V v P) as [R|[S|S]].
  - destruct (Z.eq_dec v 0) as [->|NZ]; [rewrite (proj1 (inv_special c V)); eauto|]. apply p_inv_defined; assumption.
  - rewrite (inv_nan c v V S). eauto.
  - rewrite (proj2 (inv_special c V) v S). eauto.
Qed.
Lemma pack_low_neg k e f p : pack_low c (UL Regular false k e f) = Ok p ->
  pack_low c (UL Regular true k e f) = let! m := cneg (prom (tS c)) p in Ok (deep c m).
Proof using.
  intros O. unfold pack_low in *. cbn [ltyp lneg lreg lexp lfrac] in *.
  repeat match goal with
  | H : bind ?x _ = Ok _ |- _ => let E := fresh in destruct x eqn:E; [cbn [bind] in *|discriminate H]
  | H : (if ?b then _ else _) = Ok _ |- _ => let E := fresh in destruct b eqn:E
  end; injection O as <-; reflexivity.
Qed.
Lemma half_one s : s = 1 \/ s = -1 -> exists r, p_half c s = Ok r.
Proof using V Rm.
  intros [->| ->]; [rewrite (half_refuted c V Rm); eauto|].
  pose proof (half_refuted c V Rm) as H. unfold p_half in *. rewrite unpack_low_1 in * by auto. cbn [bind ltyp lexp lreg lneg lfrac Z.eqb] in *.
  change (1 <? 0) with false in H. change (-1 <? 0) with true. destruct (csub _ _ 1) as [k|]; [cbn [bind] in *|discriminate H].
  rewrite (pack_low_neg _ _ _ 0 H). unfold cneg, tS. rewrite arith_ps by (try apply (vc_H c V); unfold pw; pow_pos 2 (Z.max 32 (cH c) - 1); lia). cbn [bind]. eauto.
Qed.
Lemma half_def v : pattern c v -> exists r, p_half c v = Ok r.
Proof using V Rm.
  intros P. destruct (pattern_kind c V v P) as [R|S].
  - destruct (Z.eq_dec v 1) as [->|]; [apply half_one; auto|]. destruct (Z.eq_dec v (-1)) as [->|]; [apply half_one; auto|]. apply p_half_defined; assumption.
  - destruct (low_special c V v S) as (t & n & U1 & T). unfold p_half. rewrite U1. cbn [bind ltyp ul_special]. destruct t; eauto. congruence.
Qed.
Lemma twice_def v : cN c + 2 < Z.max 32 (cH c) -> pattern c v -> exists r, p_twice c v = Ok r.
Proof using V.
  intros B P. destruct (pattern_kind c V v P) as [R|S]; [apply twice_defined; assumption|].
  destruct (low_special c V v S) as (t & n & U1 & T). unfold p_twice. rewrite U1. cbn [bind ltyp ul_special]. destruct t; eauto. congruence.
Qed.
Lemma of_int_def i : frac_fits c -> - 2 ^ 31 < i < 2 ^ 31 -> exists r, p_of_int c i = Ok r.
Proof using V X Rm.
  intros FF B. vcb V. destruct (proj1 (of_int c i V X (or_introl FF) B)) as (r & E & _); [apply roomy_room; assumption|eauto].
Qed.
Lemma prev_def v : real c v -> exists r, p_prev c v = Ok r.
Proof using V.
  intros R. destruct (Z.eq_dec v (- maxreal c)) as [->|N].
  - unfold p_prev. rewrite (P_MINNEG_val c V), Z.leb_refl, orb_true_r. eauto.
  - eexists. apply p_prev_in; [exact V|]. unfold real in R. lia.
Qed.
End ops.

(** 8 and 16 bit holders: arithmetic on the patterns themselves is in int and cannot overflow. *)
Section small.
Context (c : cfg) (V : valid_cfg c) (S : cH c <= 16).
Lemma pat_small v : pattern c v -> - 2 ^ 15 <= v < 2 ^ 15.
Proof using V S. intros P. vcb V. unfold pattern in P. pose proof (pow2_mono (cN c - 1) 15). lia. Qed.
Lemma promoted : prom (tS c) = sint 32.
Proof using V S. pose proof (vc_H c V) as W. unfold is_width in W. unfold prom, tS. cbn [sint iw]. destruct (Z.ltb_spec (cH c) 32); [reflexivity|lia]. Qed.
Lemma neg_def v : pattern c v -> exists r, p_neg c v = Ok r.
Proof using V S. intros P. pose proof (pat_small v P). unfold p_neg. rewrite promoted. unfold cneg. rewrite arith_s by lia. cbn [bind]. eauto. Qed.
Lemma abs_def v : pattern c v -> exists r, p_abs c v = Ok r.
Proof using V S. intros P. pose proof (pat_small v P). pose proof promoted as Q. unfold tS in Q. unfold p_abs, pcabs. destruct (v <? 0); [|cbn [bind]; eauto]. rewrite Q. unfold cneg. rewrite arith_s by lia. cbn [bind]. eauto. Qed.
Lemma next_def v : pattern c v -> exists r, p_next c v = Ok r.
Proof using V S. intros P. pose proof (pat_small v P). unfold p_next. destruct (_ || _); [eauto|]. rewrite promoted. unfold cadd. rewrite arith_s by lia. cbn [bind]. eauto. Qed.
Lemma prev_def' v : pattern c v -> exists r, p_prev c v = Ok r.
Proof using V S. intros P. pose proof (pat_small v P). unfold p_prev. destruct (_ || _); [eauto|]. rewrite promoted. unfold csub. rewrite arith_s by lia. cbn [bind]. eauto. Qed.
End small.

Lemma sub_def c a b : valid_cfg c -> exp_ok c -> roomy c -> add_fits c -> (cN c - 2 + maxk c) * 2 ^ ces c < Z.max 32 (cF c) ->
  real c a -> real c b -> exists r, p_sub c a b = Ok r.
Proof.
  intros V X Rm A S Ra Rb. vcb V. unfold p_sub. rewrite p_neg_real by assumption. cbn [bind]. apply add_def; try assumption; [apply real_pattern; assumption|].
  apply (real_pattern c V). unfold real in *. lia.
Qed.
Lemma eval_pattern c e : valid_cfg c -> cN c = cH c -> cH c <= 16 -> add_fits c -> (cN c - 2 + maxk c) * 2 ^ ces c < Z.max 32 (cF c) ->
  literals_ok c e -> exists r, eval c e = Ok r /\ pattern c r.
Proof.
  intros V NH HB A S. pose proof (add_fits_mul c A) as M.
  assert (X : exp_ok c) by (unfold exp_ok; lia). assert (Rm : roomy c) by (unfold roomy; lia).
  induction e as [v|i|a IA b IB|a IA b IB|a IA b IB|a IA b IB|a IA b IB|a IA b IB|a IA|a IA|a IA|a IA|a IA|a IA|a IA|a IA]; cbn [eval literals_ok]; intros L;
    try (destruct L as [L1 L2]; destruct (IA L1) as (x & -> & Px); destruct (IB L2) as (y & -> & Py)); try (destruct (IA L) as (x & -> & Px)); cbn [bind].
  - eauto.
  - destruct (of_int_def c V X Rm i (mul_fits_frac c M) L) as [r E]. exists r. split; [exact E|]. apply (real_pattern c V). exact (of_int_real c V X i r E).
  - destruct (add_def c V X Rm x y A S Px Py) as [r E]. exists r. split; [exact E|]. apply (add_closed c V X x y r Px Py E).
  - unfold p_sub. destruct (neg_def c V HB y Py) as [n En]. rewrite En. cbn [bind]. assert (Pn : pattern c n) by (apply (neg_pattern c V y n Py (or_introl NH) En)).
    destruct (add_def c V X Rm x n A S Px Pn) as [r E]. exists r. split; [exact E|]. apply (add_closed c V X x n r Px Pn E).
  - destruct (mul_def c V X Rm x y M Px Py) as [r E]. exists r. split; [exact E|]. apply (mul_closed c V X x y r Px Py E).
  - destruct (div_def c V X Rm x y M Px Py) as [r E]. exists r. split; [exact E|]. apply (div_closed c V X x y r Px Py E).
  - eexists. split; [reflexivity|]. apply (minmax_in c (pattern c) x y Px Py).
  - eexists. split; [reflexivity|]. apply (minmax_in c (pattern c) x y Px Py).
  - destruct (neg_def c V HB x Px) as [r E]. exists r. split; [exact E|]. apply (neg_pattern c V x r Px (or_introl NH) E).
  - destruct (abs_def c V HB x Px) as [r E]. exists r. split; [exact E|]. apply (abs_pattern c V x r Px (or_introl NH) E).
  - destruct (abs_def c V HB x Px) as [r E]. exists r. split; [exact E|]. apply (abs_pattern c V x r Px (or_introl NH) E).
  - destruct (inv_def c V X Rm x M Px) as [r E]. exists r. split; [exact E|]. apply (inv_pattern c V X x r Px E).
  - destruct (half_def c V Rm x Px) as [r E]. exists r. split; [exact E|]. apply (half_closed c V x r Px E).
  - destruct (twice_def c V x ltac:(lia) Px) as [r E]. exists r. split; [exact E|]. apply (twice_pattern c V x r Px E).
  - destruct (next_def c V HB x Px) as [r E]. exists r. split; [exact E|]. apply (next_pattern c V x r Px (or_introl NH) E).
  - destruct (prev_def' c V HB x Px) as [r E]. exists r. split; [exact E|]. apply (prev_closed c V x r Px E).
Qed.
Lemma eval_real c e : valid_cfg c -> exp_ok c -> roomy c -> add_fits c -> (cN c - 2 + maxk c) * 2 ^ ces c < Z.max 32 (cF c) ->
  tame c e -> exists r, eval c e = Ok r /\ real c r.
Proof.
  intros V X Rm A S. pose proof (add_fits_mul c A) as M. pose proof (real_pattern c V) as RP.
  induction e as [v|i|a IA b IB|a IA b IB|a IA b IB|a IA b IB|a IA b IB|a IA b IB|a IA|a IA|a IA|a IA|a IA|a IA|a IA|a IA]; cbn [eval tame]; intros L; try contradiction;
    try (destruct L as (L1 & L2 & L3); destruct (IA L1) as (x & Ex & Rx); destruct (IB L2) as (y & Ey & Ry); rewrite Ex, Ey);
    try (destruct L as (L1 & L2); destruct (IA L1) as (x & Ex & Rx); destruct (IB L2) as (y & Ey & Ry); rewrite Ex, Ey);
    try (destruct (IA L) as (x & Ex & Rx); rewrite Ex); cbn [bind].
  - eauto.
  - destruct (of_int_def c V X Rm i (mul_fits_frac c M) L) as [r E]. exists r. split; [exact E|]. exact (of_int_real c V X i r E).
  - destruct (add_def c V X Rm x y A S (RP x Rx) (RP y Ry)) as [r E]. exists r. split; [exact E|]. apply (add_closed c V X x y r (RP x Rx) (RP y Ry) E); assumption.
  - destruct (sub_def c x y V X Rm A S Rx Ry) as [r E]. exists r. split; [exact E|]. apply (sub_real c V X x y r Rx Ry E).
  - destruct (mul_def c V X Rm x y M (RP x Rx) (RP y Ry)) as [r E]. exists r. split; [exact E|]. apply (mul_closed c V X x y r (RP x Rx) (RP y Ry) E); assumption.
  - destruct (div_def c V X Rm x y M (RP x Rx) (RP y Ry)) as [r E]. exists r. split; [exact E|]. apply (div_closed c V X x y r (RP x Rx) (RP y Ry) E); try assumption. congruence.
  - eexists. split; [reflexivity|]. apply (minmax_in c (real c) x y Rx Ry).
  - eexists. split; [reflexivity|]. apply (minmax_in c (real c) x y Rx Ry).
  - exists (- x). split; [apply p_neg_real; assumption|]. unfold real in *. lia.
  - exists (Z.abs x). split; [apply p_abs_real; assumption|]. unfold real in *. lia.
  - exists (Z.abs x). split; [exact (p_abs_real c x V Rx)|]. unfold real in *. lia.
  - destruct (half_def c V Rm x (RP x Rx)) as [r E]. exists r. split; [exact E|]. apply (half_closed c V x r (RP x Rx) E). exact Rx.
  - destruct (prev_def c V x Rx) as [r E]. exists r. split; [exact E|]. apply (prev_closed c V x r (RP x Rx) E). exact Rx.
Qed.

Lemma eval_exact c : valid_cfg c -> exp_ok c -> roomy c -> add_fits c ->
  ((forall e, tame c e -> exists r, eval c e = Ok r /\ real c r) <-> (cN c - 2 + maxk c) * 2 ^ ces c < Z.max 32 (cF c)).
Proof.
  intros V X Rm A. split; [|intros S e T; apply eval_real; assumption].
  intros H. destruct (Z_lt_le_dec ((cN c - 2 + maxk c) * 2 ^ ces c) (Z.max 32 (cF c))) as [L|L]; [exact L|exfalso].
  vcb V. pose proof (maxreal_bounds c BN Bes) as MB. destruct (H (Add (Lit (maxreal c)) (Lit 1))) as (r & E & _); [cbn [tame]; unfold real; lia|].
  cbn [eval bind] in E. rewrite (proj2 (add_total c (maxreal c) 1 V X A ltac:(unfold real; lia) ltac:(unfold real; lia)) (ends_far c V L)) in E. discriminate E.
Qed.
Lemma eval_wide : exists c e, valid_cfg c /\ exp_ok c /\ roomy c /\ add_fits c /\ tame c e /\ eval c e = UB ShiftCount.
Proof. exists p16, (Add (Lit 32767) (Lit 1)). split; [valid_hyp|]. split; [vm_compute; discriminate || reflexivity|]. split; [reflexivity|]. split; [unfold add_fits; cbn; lia|]. split; [cbn [tame]; unfold real; cbn; lia|]. vm_compute. reflexivity. Qed.
