(** exp2 in the table programs beyond the exponents of a normal float, and an exponential that overflows. *)
From Coq Require Import ZArith QArith Qabs Qpower Qminmax Lia Lqa Bool List.
From Verif Require Import Res CInt Bits Traits Unpacked Cfg Posit Spec SpecTab SpecFloat SpecAny SpecGen FloatOps QPow Core SpecLemmas Arith DecodeProof EncodeProof
  UOps UAdd Ops OpsAdd OpsUnary OpsUnary2 Specials Room Laws Configs Final1 Final2 Final3 Misc4 Conv1 Conv2 Conv3 Conv4 Conv5 TabProof5 FloatProof FloatProof2 PositF PositFProof PositFProof2 PositFProof3 PositFProof4
  AnyProof AnyProof2 AnyProof3 AnyProof4 AnyProof5 Tab TabProof TabProof2 TabProof3 TabProof4 Gen GenProof GenProof2 GenProof3 GenProof4 GenProof5.
Open Scope Z_scope.

Section ex.
Context (c : cfg) (T : tabbed c) (F : cF c <= 22) (ex : Z -> Z) (EX : exp2_float 8 23 ex).
Let V := tb_valid c T.

Lemma entry_reads : reads_floats c 8 23 (p_of_float c single_trait).
Proof using T F.
  change single_trait with (any_floattrait 8 23 true). apply (reads_ok c T 8 23 fmt23 (tb_et c T)); [lia|lia| |].
  - exact (proj1 (tb_zero c T)).
  - exact (proj2 (tb_zero c T)).
Qed.

(** What the exponential of a posit can be, as a float. *)
Lemma entry_float v : real c v -> exists b, g_float c v = Ok b /\ 0 <= ex b < 2 ^ (8 + 23 + 1) /\
  (forall w, is_float 8 23 w -> (0 < w)%Q -> le_exp2 w (value c v) -> ext_le (FinVal w) (ieee_val 8 23 (ex b))) /\
  (forall w, is_float 8 23 w -> (0 < w)%Q -> ge_exp2 w (value c v) -> ext_le (ieee_val 8 23 (ex b)) (FinVal w)) /\
  ext_le (FinVal 0) (ieee_val 8 23 (ex b)).
Proof using T EX.
  intros R. destruct (float_real c T v R) as (b & x & O & B & I & E). exists b. split; [exact O|]. split; [exact (e2_range _ _ _ EX b B)|]. split; [|split].
  - intros w W P H. apply (e2_below _ _ _ EX b x w B I W P). apply (le_exp2_comp w w x (value c v)); [reflexivity|exact E|exact H].
  - intros w W P H. apply (e2_above _ _ _ EX b x w B I W P). apply (ge_exp2_comp w w (value c v) x); [reflexivity|symmetry; exact E|exact H].
  - exact (e2_pos _ _ _ EX b x B I).
Qed.
Lemma entry_exp2_wide v : real c v -> (inject_Z (-126 - cF c) <= value c v)%Q ->
  exists r, g_exp2 c ex v = Ok r /\ (exp2_near c (value c v) r \/ (127 < value c v)%Q /\ r = exceptional c).
Proof using T F EX.
  intros R L. unfold g_exp2. destruct (entry_float v R) as (b & -> & BE & BL & AB & _). cbn [bind]. pose proof (entry_reads (ex b) BE) as RD. pose proof (tb_F c T) as F7.
  pose proof (BL (pow2 (-126 - cF c)) (is_float_pow2 8 23 fmt23 (-126 - cF c) ltac:(change (2 ^ (8 - 1)) with 128; lia)) (pow2_pos _) (pow2_exp2 _ _ L)) as LO.
  destruct (ieee_val 8 23 (ex b)) as [y|[]|] eqn:IE; cbn [ext_le] in LO; try contradiction.
  - cbv zeta in RD. change (2 - 2 ^ (8 - 1) - cF c) with (-126 - cF c) in RD. pose proof (pow2_pos (-126 - cF c)) as KP.
    destruct RD as [_ RD]. destruct RD as (r & O & H); [rewrite Qabs_pos by lra; exact LO|]. exists r. split; [exact O|]. left.
    assert (D : down_pos c y r) by (destruct H as [[H _]|[[_ H]|[H _]]]; [lra|exact H|lra]). destruct D as (D1 & D2 & D3 & D4).
    split; [exact D1|]. split; [exact D2|]. split.
    + intros w W P LT G. pose proof (AB _ (posit_is_float c T w W) P G) as H'. cbn [ext_le] in H'. destruct D4 as [D4|D4]; [lra|]. pose proof (D4 w W P). lra.
    + intros w W P LT G. pose proof (BL _ (posit_is_float c T w W) P G) as H'. cbn [ext_le] in H'. pose proof (D3 w W P H'). lra.
  - exists (exceptional c). split; [exact RD|]. right. split; [|reflexivity]. apply Qnot_le_lt. intros U.
    exact (AB (pow2 127) (is_float_pow2 8 23 fmt23 127 ltac:(change (2 ^ (8 - 1)) with 128; lia)) (pow2_pos _) (exp2_pow2 127 _ U)).
Qed.
Lemma entry_exp2_low v : real c v -> (value c v <= inject_Z (-127 - cF c))%Q -> g_exp2 c ex v = Ok 0.
Proof using T F EX.
  intros R U. unfold g_exp2. destruct (entry_float v R) as (b & -> & BE & BL & AB & NN). cbn [bind]. pose proof (entry_reads (ex b) BE) as RD. pose proof (tb_F c T) as F7.
  pose proof (AB (pow2 (-127 - cF c)) (is_float_pow2 8 23 fmt23 (-127 - cF c) ltac:(change (2 ^ (8 - 1)) with 128; lia)) (pow2_pos _) (exp2_pow2 _ _ U)) as HI.
  destruct (ieee_val 8 23 (ex b)) as [y|[]|] eqn:IE; cbn [ext_le] in HI, NN; try contradiction.
  cbv zeta in RD. change (2 - 2 ^ (8 - 1) - cF c) with (-126 - cF c) in RD. apply (proj1 RD). rewrite Qabs_pos by exact NN.
  apply (Qle_lt_trans _ _ _ HI). apply pow2_lt. lia.
Qed.
End ex.

Lemma t10_exp2_wide ex (EX : exp2_float 8 23 ex) v : real t10 v -> (-142 <= value t10 v)%Q ->
  exists r, t10_exp2 ex v = Ok r /\ (exp2_near t10 (value t10 v) r \/ (127 < value t10 v)%Q /\ r = exceptional t10).
Proof.
  intros R L. pose proof tab_t10 as T. unfold t10_exp2, g_opexp2. rewrite t10_tab by (apply (real_pat t10 T); exact R).
  apply (entry_exp2_wide t10 T); [cbn; lia|exact EX|exact R|exact L].
Qed.
Lemma t10_exp2_low ex (EX : exp2_float 8 23 ex) v : real t10 v -> (value t10 v <= -143)%Q -> t10_exp2 ex v = Ok 0.
Proof.
  intros R L. pose proof tab_t10 as T. unfold t10_exp2, g_opexp2. rewrite t10_tab by (apply (real_pat t10 T); exact R).
  apply (entry_exp2_low t10 T); [cbn; lia|exact EX|exact R|exact L].
Qed.

(** ** An exponential that overflows to infinity from 128 on *)
Definition ex_over (b : Z) : Z :=
  match ieee_val 8 23 b with FinVal x => if Qle_bool 128 x then f_inf 8 23 false else ex_floor b | _ => ex_floor b end.
Lemma ex_over_faithful : exp2_float 8 23 ex_over.
Proof.
  pose proof ex_floor_faithful as E.
  assert (SP : forall b, (forall x, ieee_val 8 23 b <> FinVal x) -> ex_over b = ex_floor b) by (intros b N; unfold ex_over; destruct (ieee_val 8 23 b) as [x| |]; [destruct (N x eq_refl)|reflexivity|reflexivity]).
  assert (IV : ieee_val 8 23 (f_inf 8 23 false) = InfVal false) by (vm_compute; reflexivity).
  constructor.
  - intros b B. unfold ex_over. destruct (ieee_val 8 23 b) as [x| |]; [destruct (Qle_bool 128 x)|..]; [vm_compute; split; [discriminate|reflexivity]|exact (e2_range _ _ _ E b B)..].
  - intros b B I. rewrite SP by (intros x; rewrite I; discriminate). exact (e2_nan _ _ _ E b B I).
  - intros b B I. rewrite SP by (intros x; rewrite I; discriminate). exact (e2_pinf _ _ _ E b B I).
  - intros b B I. rewrite SP by (intros x; rewrite I; discriminate). exact (e2_ninf _ _ _ E b B I).
  - intros b x B I. unfold ex_over. rewrite I. destruct (Qle_bool 128 x); [rewrite IV; exact Logic.I|exact (e2_pos _ _ _ E b x B I)].
  - intros b x w B I F P L. unfold ex_over. rewrite I. destruct (Qle_bool 128 x); [rewrite IV; exact Logic.I|exact (e2_below _ _ _ E b x w B I F P L)].
  - intros b x w B I F P L. unfold ex_over. rewrite I. destruct (Qle_bool 128 x) eqn:Q; [exfalso|exact (e2_above _ _ _ E b x w B I F P L)].
    apply Qle_bool_iff in Q. pose proof (exp2_order (pow2 128) w x (pow2_pos _) P (pow2_exp2 128 x Q) L) as G.
    destruct (float_mval 8 23 fmt23 w F) as (sg & h & H1 & H2). change ((2 ^ 8 - 1) * 2 ^ 23) with (255 * 2 ^ 23) in H1.
    assert (M : (mval 8 23 h <= mval 8 23 (255 * 2 ^ 23 - 1))%Q) by (apply (mval_le 8 23 fmt23); lia).
    assert (M2 : (mval 8 23 (255 * 2 ^ 23 - 1) < pow2 128)%Q) by (vm_compute; reflexivity).
    assert (M3 : (0 <= mval 8 23 h)%Q) by (destruct (Z.eq_dec h 0) as [->|]; [rewrite (mval_0 8 23 fmt23); lra|apply Qlt_le_weak, (mval_pos 8 23 fmt23); lia]).
    pose proof (pow2_pos 128). destruct sg; cbn [sgq] in H2; lra.
Qed.
Lemma t10_exp2_over v : real t10 v -> (128 <= value t10 v)%Q -> t10_exp2 ex_over v = Ok (exceptional t10).
Proof.
  intros R L. pose proof tab_t10 as T. unfold t10_exp2, g_opexp2. rewrite t10_tab by (apply (real_pat t10 T); exact R).
  unfold g_exp2. destruct (float_real t10 T v R) as (b & x & -> & B & I & E). cbn [bind]. apply (of_nan t10 T).
  - exact (e2_range _ _ _ ex_over_faithful b B).
  - intros y. unfold ex_over. rewrite I. destruct (Qle_bool 128 x) eqn:Q; [vm_compute; discriminate|]. exfalso. assert (L' : (128 <= x)%Q) by lra. apply Qle_bool_iff in L'. rewrite L' in Q. discriminate.
Qed.
