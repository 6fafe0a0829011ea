(** Programs with fma, sums of products and dot: when they run without undefined behaviour. *)
From Coq Require Import ZArith QArith Lia Bool List.
From Verif Require Import Res CInt Bits Traits Unpacked Cfg Posit Posit2 Spec SpecDot SpecProg SpecProg2 QPow Core SpecLemmas Arith DecodeProof Ops OpsAdd OpsUnary OpsUnary2 Final1 Final2 Laws Dot DotFma DotPos DotMix DotIff Configs Examples Acc2 Prog1 Prog2 Prog3.
Import ListNotations.
Open Scope Z_scope.

Scheme prog_ind2 := Induction for prog Sort Prop with pvec_ind2 := Induction for pvec Sort Prop.
Combined Scheme prog_both from prog_ind2, pvec_ind2.

Lemma run_real c n : valid_cfg c -> exp_ok c -> roomy c -> add_fits c -> (cH c = 8 -> cN c + ces c < 8 -> cF c <= 32) -> 2 <= n < 2 ^ 31 ->
  2 * (cN c - 2 + maxk c) * 2 ^ ces c + Z.max (Z.min (Z.log2 (n - 1)) (cF c - 1)) (if cF c <? 32 then 0 else 2) < Z.max 32 (cF c) ->
  (forall e, tame_prog c n e -> exists r, run c e = Ok r /\ real c r) /\
  (forall l, tame_vec c n l -> exists v, run_vec c l = Ok v /\ dot_real c v /\ Z.of_nat (length v) = vec_length l).
Proof.
  intros V X Rm A H8 N S. pose proof (add_fits_mul c A) as M. pose proof (mul_fits_frac c M) as FF. pose proof (real_pattern c V) as RP.
  pose proof (top_L c V) as TL. pose proof (is_width_pos _ (vc_F _ V)) as BF. pose proof (Z.log2_nonneg (n - 1)) as LN.
  assert (SA : (cN c - 2 + maxk c) * 2 ^ ces c < Z.max 32 (cF c)) by lia.
  assert (DD : forall l, dot_real c l -> Z.of_nat (length l) <= n -> exists r, p_dot c l = Ok r /\ real c r).
  { intros l R LL. pose proof (Z.log2_le_mono (Z.of_nat (length l) - 1) (n - 1) ltac:(lia)).
    destruct (dot_mixed c l V X FF Rm H8 R ltac:(lia)) as (r & x & E & T & _); [destruct (Z.ltb_spec (cF c) 32); lia|].
    exists r. split; [exact E|]. pose proof V as V'. vcb V'. exact (rounds_tz_real c BN Bes _ _ T). }
  assert (D2 : forall x y z w, real c x -> real c y -> real c z -> real c w -> exists r, p_dot c [(x, y); (z, w)] = Ok r /\ real c r).
  { intros x y z w Rx Ry Rz Rw. apply DD; [|cbn [length]; lia]. constructor; [split; assumption|]. constructor; [split; assumption|constructor]. }
  apply prog_both.
  - intros v R. exists v. split; [reflexivity|exact R].
  - intros i B. destruct (of_int_def c V X Rm i FF B) as [r E]. exists r. split; [exact E|]. exact (of_int_real c V X i r E).
  - intros o a IA L. destruct (IA L) as (x & Ex & Rx). cbn [run]. rewrite Ex. cbn [bind]. destruct o; cbn [run1].
    + exists (- x). split; [apply p_neg_real; assumption|]. unfold real in *. lia.
    + exists (Z.abs x). split; [apply p_abs_real; assumption|]. unfold real in *. lia.
    + exists (Z.abs x). split; [exact (p_abs_real c x V Rx)|]. unfold real in *. lia.
    + destruct (half_def c V Rm x (RP x Rx)) as [r E]. exists r. split; [exact E|]. apply (half_closed c V x r (RP x Rx) E). exact Rx.
    + destruct (prev_def c V x Rx) as [r E]. exists r. split; [exact E|]. apply (prev_closed c V x r (RP x Rx) E). exact Rx.
  - intros o a IA b IB (L1 & L2 & L3). destruct (IA L1) as (x & Ex & Rx). destruct (IB L2) as (y & Ey & Ry). cbn [run]. rewrite Ex, Ey. cbn [bind]. destruct o; cbn [run2].
    + destruct (add_def c V X Rm x y A SA (RP x Rx) (RP y Ry)) as [r E]. exists r. split; [exact E|]. apply (add_closed c V X x y r (RP x Rx) (RP y Ry) E); assumption.
    + destruct (sub_def c x y V X Rm A SA Rx Ry) as [r E]. exists r. split; [exact E|]. apply (sub_real c V X x y r Rx Ry E).
    + destruct (mul_def c V X Rm x y M (RP x Rx) (RP y Ry)) as [r E]. exists r. split; [exact E|]. apply (mul_closed c V X x y r (RP x Rx) (RP y Ry) E); assumption.
    + destruct (div_def c V X Rm x y M (RP x Rx) (RP y Ry)) as [r E]. exists r. split; [exact E|]. apply (div_closed c V X x y r (RP x Rx) (RP y Ry) E); try assumption. specialize (L3 eq_refl). congruence.
    + eexists. split; [reflexivity|]. apply (minmax_in c (real c) x y Rx Ry).
    + eexists. split; [reflexivity|]. apply (minmax_in c (real c) x y Rx Ry).
  - intros a IA b IB d ID (L1 & L2 & L3). destruct (IA L1) as (x & Ex & Rx). destruct (IB L2) as (y & Ey & Ry). destruct (ID L3) as (z & Ez & Rz). cbn [run]. rewrite Ex, Ey, Ez. cbn [bind].
    destruct (fma_is_sum c x y z V X M Rx Ry Rz) as (E1 & _ & RO). rewrite E1. apply D2; assumption.
  - intros a IA b IB d ID g IG (L1 & L2 & L3 & L4). destruct (IA L1) as (x & Ex & Rx). destruct (IB L2) as (y & Ey & Ry). destruct (ID L3) as (z & Ez & Rz). destruct (IG L4) as (w & Ew & Rw). cbn [run]. rewrite Ex, Ey, Ez, Ew. cbn [bind].
    rewrite pm_add_dot. apply D2; assumption.
  - intros l IL (L1 & L2). destruct (IL L2) as (v & Ev & Rv & Lv). cbn [run]. rewrite Ev. cbn [bind]. apply DD; [exact Rv|lia].
  - intros _. exists []. split; [reflexivity|]. split; [constructor|reflexivity].
  - intros a IA b IB l IL (L1 & L2 & L3). destruct (IA L1) as (x & Ex & Rx). destruct (IB L2) as (y & Ey & Ry). destruct (IL L3) as (v & Ev & Rv & Lv). cbn [run_vec]. rewrite Ex, Ey, Ev. cbn [bind].
    exists ((x, y) :: v). split; [reflexivity|]. split; [constructor; [split; assumption|exact Rv]|]. cbn [length vec_length]. lia.
Qed.
Fixpoint lits (l : list (Z * Z)) : pvec := match l with [] => PNil | (x, y) :: t => PCons (PLit x) (PLit y) (lits t) end.
Lemma lits_run c l : run_vec c (lits l) = Ok l.
Proof. induction l as [|[x y] t IH]; [reflexivity|]. cbn [lits run_vec run bind]. rewrite IH. reflexivity. Qed.
Lemma lits_tame c n l : dot_real c l -> tame_vec c n (lits l).
Proof. induction l as [|[x y] t IH]; intros R; [exact I|]. inversion R as [|? ? [Rx Ry] Rt]; subst. cbn [lits tame_vec tame_prog]. auto. Qed.
Lemma lits_length l : vec_length (lits l) = Z.of_nat (length l).
Proof. induction l as [|[x y] t IH]; [reflexivity|]. cbn [lits vec_length length]. lia. Qed.
Lemma run_iff c n : valid_cfg c -> exp_ok c -> roomy c -> add_fits c -> (cH c = 8 -> cN c + ces c < 8 -> cF c <= 32) -> 3 <= n < 2 ^ 31 ->
  ((forall e, tame_prog c n e -> exists r, run c e = Ok r /\ real c r) <->
   2 * (cN c - 2 + maxk c) * 2 ^ ces c + Z.max (Z.min (Z.log2 (n - 1)) (cF c - 1)) (if cF c <? 32 then 0 else 2) < Z.max 32 (cF c)).
Proof.
  intros V X Rm A H8 N. pose proof (mul_fits_frac c (add_fits_mul c A)) as FF. split.
  - intros H. apply (dot_defined_iff_any c n V X FF Rm H8 N). intros l R LL. destruct (H (PDot (lits l))) as (r & E & _).
    + cbn [tame_prog]. rewrite lits_length. split; [exact LL|apply lits_tame; exact R].
    + cbn [run] in E. rewrite lits_run in E. eauto.
  - intros B. apply (run_real c n V X Rm A H8 ltac:(lia) B).
Qed.
