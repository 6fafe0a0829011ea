(** The values a program computes are patterns of the format; from finite values with finite operations, numbers. *)
From Coq Require Import ZArith QArith Lia Bool List.
From Verif Require Import Res CInt Bits Traits Cfg Spec SpecFloat Unpacked Posit Posit2 QPow Core SpecLemmas Arith DecodeProof EncodeProof Ops OpsAdd OpsUnary OpsUnary2
  Final1 Final2 Final3 Final4 Conv1 Conv2 Configs SpecProg Prog1.
Import ListNotations.
Open Scope Z_scope.

Section ops.
Context (c : cfg) (V : valid_cfg c) (X : exp_ok c).
Notation F := (cF c).

Lemma pattern_kind v : pattern c v -> real c v \/ is_nan c v \/ is_inf c v.
Proof using V. intros P. destruct (classify c v V P) as [[E _]|[[E _]|[[E _]|(R & _)]]]; auto. subst v. left. apply (zero_real c V). Qed.
Lemma low_special v : is_nan c v \/ is_inf c v -> exists t n, unpack_low c v = Ok (ul_special t n) /\ t <> Regular.
Proof using V.
  intros [N|I]; unfold unpack_low.
  - destruct (isinfinity c v); [exists Infinity, (v <? 0); split; [reflexivity|discriminate]|]. rewrite (proj2 (isNaN_spec c v V) N). exists NaN, false. split; [reflexivity|discriminate].
  - rewrite (proj2 (isinf_spec c v V) I). exists Infinity, (v <? 0). split; [reflexivity|discriminate].
Qed.
Lemma half_closed v r : pattern c v -> p_half c v = Ok r -> pattern c r /\ (real c v -> real c r).
Proof using V.
  intros P O. vcb V.
  assert (K : real c v -> real c r).
  { intros R. destruct (Z.eq_dec v 1) as [->|]; [rewrite (p_half_minpos c 1 r V ltac:(auto) O); apply (zero_real c V)|].
    destruct (Z.eq_dec v (-1)) as [->|]; [rewrite (p_half_minpos c (-1) r V ltac:(auto) O); apply (zero_real c V)|].
    eapply rounds_tz_real; [assumption|assumption|]. apply (p_half_rounds c v); assumption. }
  split; [|exact K]. destruct (pattern_kind v P) as [R|S]; [apply (real_pattern c V), K, R|].
  destruct (low_special v S) as (t & n & U1 & T). unfold p_half in O. rewrite U1 in O. cbn [bind ltyp ul_special] in O. destruct t; try (injection O as <-; exact P). congruence.
Qed.
Lemma twice_pattern v r : pattern c v -> p_twice c v = Ok r -> pattern c r.
Proof using V.
  intros P O. vcb V. destruct (pattern_kind v P) as [R|S].
  - destruct (Z.eq_dec (Z.abs v) (maxreal c)) as [A|A]; [destruct (Z.eq_dec (ces c) 0) as [E0|E0]; [destruct (csp c) eqn:SP|]|].
    3: { rewrite (twice_escape c v r V SP E0 R A O). apply (inf_pattern c V). }
    all: apply (real_pattern c V); eapply rounds_tz_real; [assumption|assumption|]; apply (twice_rounds c v); try assumption; intros (B1 & B2 & B3); congruence || contradiction.
  - destruct (low_special v S) as (t & n & U1 & T). unfold p_twice in O. rewrite U1 in O. cbn [bind ltyp ul_special] in O. destruct t; try (injection O as <-; exact P). congruence.
Qed.
Lemma inv_pattern v r : pattern c v -> p_inv c v = Ok r -> pattern c r.
Proof using V X.
  intros P O. vcb V. pose proof (is_width_pos _ (vc_H c V)) as WH. destruct (pattern_kind v P) as [R|[S|S]].
  - destruct (Z.eq_dec v 0) as [->|NZ]; [rewrite (proj1 (inv_special c V)) in O; injection O as <-; exact P|].
    destruct (unpack_low_val c v V R NZ) as (k & e & f & U1 & UB).
    destruct (Z.eq_dec f 0) as [F0|F0].
    + subst f. destruct (p_inv_pow2 c v k e V R NZ U1) as (k' & e' & E1 & E2 & E3 & E4 & E5 & E6).
      assert (D : inv_escapes c v \/ ~ inv_escapes c v).
      { unfold inv_escapes. destruct (csp c); [right|right|]; try (intros [E _]; discriminate). destruct (Z.eq_dec v 1); [left; auto|]. destruct (Z.eq_dec v (-1)); [left; auto|]. right. tauto. }
      destruct D as [D|D].
      * rewrite (p_inv_escape c v r V D O). pow_pos 2 (cN c - 1). unfold pattern, sg. destruct (v <? 0); lia.
      * rewrite E1 in O. apply (real_pattern c V). eapply rounds_tz_real; [assumption|assumption|]. eapply (pack_low_rounds c _ k' e' 0 r V E2 E3); [pow_pos 2 (cH c); lia|exact (E6 D)|exact O].
    + unfold p_inv in O. rewrite U1 in O. cbn [bind lfrac] in O. destruct (Z.eqb_spec f 0); [contradiction|].
      assert (UU : unpack c v = unpacked_low2full c (UL Regular (v <? 0) k e f)) by (unfold unpack; rewrite U1; reflexivity). rewrite <- UU in O.
      destruct (unpack c v) as [u|] eqn:U2; [cbn [bind] in O|discriminate O]. destruct (unpack_ok c V v u P U2) as [K _].
      destruct (u_inv F (c_E c) u) as [i|] eqn:I; [cbn [bind] in O|discriminate O]. apply (pack_ok c V X i r (uinv_ok _ _ _ _ (F_nonneg c V) K I) O).
  - rewrite (inv_nan c v V S) in O. injection O as <-. exact P.
  - rewrite (proj2 (inv_special c V) v S) in O. injection O as <-. exact P.
Qed.
Lemma next_pattern v r : pattern c v -> cN c = cH c \/ v <> maxreal c -> p_next c v = Ok r -> pattern c r.
Proof using V.
  intros P H O. vcb V. pose proof (maxreal_bounds c BN Bes). unfold p_next in O. rewrite (P_MINNEG_val c V), (P_MAXPOS_val c V) in O.
  destruct ((v <=? - maxreal c) || (v >? maxreal c)) eqn:B; [injection O as <-; exact P|]. apply orb_false_iff in B. destruct B as [B1 B2].
  destruct (Z.eq_dec v (maxreal c)) as [E|E].
  - destruct H as [NH|NH]; [|contradiction]. destruct (cadd _ v 1); [|discriminate O]. cbn [bind] in O. injection O as <-. apply (holder_pattern c V). exact NH.
  - assert (RV : - maxreal c < v < maxreal c) by lia. pose proof (p_next_in c v V RV) as Q. unfold p_next in Q. rewrite (P_MINNEG_val c V), (P_MAXPOS_val c V), B1, B2 in Q. cbn [orb] in Q.
    rewrite Q in O. injection O as <-. unfold pattern in *. lia.
Qed.
Lemma prev_closed v r : pattern c v -> p_prev c v = Ok r -> pattern c r /\ (real c v -> real c r).
Proof using V.
  intros P O. vcb V. pose proof (maxreal_bounds c BN Bes). unfold p_prev in O. rewrite (P_MINNEG_val c V), (P_MAXPOS_val c V) in O.
  destruct ((v >? maxreal c) || (v <=? - maxreal c)) eqn:B; [injection O as <-; auto|]. apply orb_false_iff in B. destruct B as [B1 B2].
  assert (RV : - maxreal c < v <= maxreal c) by lia. pose proof (p_prev_in c v V RV) as Q. unfold p_prev in Q. rewrite (P_MINNEG_val c V), (P_MAXPOS_val c V), B1, B2 in Q. cbn [orb] in Q.
  rewrite Q in O. injection O as <-. unfold pattern, real in *. lia.
Qed.
Lemma crl_ok aw ab b v r : 0 <= b -> cast_right_to_left aw ab b b v = Ok r -> 0 <= r < 2 ^ b.
Proof using. intros B O. unfold cast_right_to_left in O. inv_binds O. destruct (ab >? b); inv_binds O; injection O as <-; apply cast_u_range; exact B. Qed.
Lemma of_int_real i r : p_of_int c i = Ok r -> real c r.
Proof using V X.
  intros O. unfold p_of_int in O. destruct (u_unpack_xfixed F (c_E c) int_trait i) as [u|] eqn:E; [cbn [bind] in O|discriminate O].
  assert (K : uok F u /\ ufin u).
  { unfold u_unpack_xfixed in E. destruct (negb (i =? 0)).
    - cbv zeta in E. destruct (pcabs _ i) as [ax|]; [cbn [bind] in E|discriminate E]. destruct (findbitleftmostC _ _) as [lz|]; [cbn [bind] in E|discriminate E].
      destruct (if x_total int_trait - lz - 1 =? 0 then _ else _) as [ux|]; [cbn [bind] in E|discriminate E].
      destruct (cast_right_to_left _ _ _ _ ux) as [f|] eqn:C; [cbn [bind] in E|discriminate E]. injection E as <-. split; [apply (crl_ok _ _ _ _ _ (F_nonneg c V) C)|left; reflexivity].
    - injection E as <-. split; [unfold uok; cbn [ufrac]; pose proof (Z.pow_pos_nonneg 2 (cF c) ltac:(lia) (F_nonneg c V)); lia|right; reflexivity]. }
  destruct K as [K1 K2]. apply (pack_ok c V X u r K1 O). exact K2.
Qed.
Lemma of_float_pattern t b r : p_of_float c t b = Ok r -> pattern c r.
Proof using V X.
  intros O. unfold p_of_float in O. destruct (u_unpack_xfloati F (c_E c) t b) as [u|] eqn:E; [cbn [bind] in O|discriminate O].
  assert (K : uok F u).
  { unfold u_unpack_xfloati in E. cbv zeta in E. destruct (bitset_get _ _ _ _) as [raw|]; [cbn [bind] in E|discriminate E]. destruct (csub _ _ _) as [e0|]; [cbn [bind] in E|discriminate E].
    destruct (cast_right_to_left _ _ _ _ b) as [f|] eqn:C; [cbn [bind] in E|discriminate E]. pose proof (crl_ok _ _ _ _ _ (F_nonneg c V) C) as CB.
    destruct (_ =? 2 ^ t_ebits t - 1); [injection E as <-; exact CB|]. destruct (_ =? 0); [|injection E as <-; exact CB].
    destruct (_ || _); [injection E as <-; exact CB|]. inv_binds E. injection E as <-. apply cast_u_range, (F_nonneg c V). }
  apply (pack_ok c V X u r K O).
Qed.
Lemma of_float_real eb fb den b q r : fmt_ok eb fb -> et_holds c eb -> 0 <= b < 2 ^ (eb + fb + 1) -> ieee_val eb fb b = FinVal q ->
  p_of_float c (any_floattrait eb fb den) b = Ok r -> real c r.
Proof using V X.
  intros FO ET B IV O. pose proof (et_ok c eb fb V FO ET) as EE. destruct (ieee_cases eb fb FO b B) as (Bf & Be & C). rewrite IV in C. destruct C as [C _].
  destruct (unpack_float eb fb (cF c) (c_E c) den FO (vc_F c V) (c_E_width c V) EE b B) as [Bd R]. unfold p_of_float in O. rewrite R in O. clear R.
  destruct (Z.eqb_spec (fexp_of eb fb b) (2 ^ eb - 1)) as [Q|_]; [contradiction|]. cbv zeta in O. pose proof (F_nonneg c V) as FN.
  destruct (_ =? 0); [destruct (_ || _); [|destruct (_ <? _)]|]; cbn [bind] in O; try discriminate O.
  - eapply (pack_ok c V X); [|exact O|right; reflexivity]. exact Bd.
  - eapply (pack_ok c V X); [|exact O|left; reflexivity]. unfold uok. cbn [ufrac]. apply Z.mod_pos_bound. apply Z.pow_pos_nonneg; lia.
  - eapply (pack_ok c V X); [|exact O|left; reflexivity]. exact Bd.
Qed.
Lemma convert_closed c0 v r : valid_cfg c0 -> same_unpacked c0 c -> pattern c0 v -> p_convert c0 c v = Ok r -> pattern c r /\ (real c0 v -> real c r).
Proof using V X.
  intros V0 [SF _] P O. unfold p_convert in O. destruct (unpack c0 v) as [u|] eqn:U1; [cbn [bind] in O|discriminate O].
  destruct (unpack_ok c0 V0 v u P U1) as (K1 & K2 & _). rewrite SF in K1. destruct (pack_ok c V X u r K1 O). auto.
Qed.
Lemma minmax_in (P : Z -> Prop) a b : P a -> P b -> P (p_stdmin c a b) /\ P (p_stdmax c a b).
Proof using. intros A B. unfold p_stdmin, p_stdmax. destruct (p_le c a b), (p_ge c a b); auto. Qed.
Lemma sub_pattern a b r : pattern c a -> pattern c b -> cN c = cH c \/ b <> exceptional c -> p_sub c a b = Ok r -> pattern c r.
Proof using V X.
  intros A B H O. unfold p_sub in O. destruct (p_neg c b) as [nb|] eqn:N; [cbn [bind] in O|discriminate O]. exact (proj1 (add_closed c V X a nb r A (neg_pattern c V b nb B H N) O)).
Qed.
Lemma sub_real a b r : real c a -> real c b -> p_sub c a b = Ok r -> real c r.
Proof using V X.
  intros A B O. vcb V. unfold p_sub in O. rewrite (p_neg_real c b V B) in O. cbn [bind] in O. pose proof (real_opp c BN Bes b B) as NB.
  exact (proj2 (add_closed c V X a (- b) r (real_pattern c V a A) (real_pattern c V _ NB) O) A NB).
Qed.
Lemma const_pattern v : In v [p_zero c; p_one c; p_mone c; p_two c; p_max c; p_min c; p_lowest c; p_nan c; p_inf c; p_pinf c; p_ninf c] -> pattern c v.
Proof using V.
  destruct (constants c V) as (_ & _ & _ & T & Z & O & M & T2 & MX & MN & LW & _ & _ & _ & N & PI & I & NI). rewrite N, PI, I, NI. pose proof (real_pattern c V) as RP. pose proof (inf_pattern c V) as IP.
  assert (P2 : pattern c (p_two c)).
  { destruct (csp c) eqn:S; [apply RP, T2; congruence|apply RP, T2; congruence|]. destruct (Z.eq_dec (cN c) 3) as [E|E]; [|apply RP, T2; auto]. rewrite (two_inf c V S E). apply IP. }
  intros [<-|[<-|[<-|[<-|[<-|[<-|[<-|[<-|[<-|[<-|[<-|[]]]]]]]]]]]]; auto. apply (exceptional_pattern c V).
Qed.
End ops.

Lemma computed_pattern : forall c v, computed c v -> valid_cfg c -> exp_ok c -> pattern c v.
Proof.
  fix IH 3. intros c v K V X. destruct K.
  - apply const_pattern; assumption.
  - apply (real_pattern c V). eapply of_int_real; eassumption.
  - eapply of_float_pattern; eassumption.
  - eapply (proj1 (convert_closed c V X c0 v r ltac:(assumption) ltac:(assumption) ltac:(apply IH; assumption) ltac:(eassumption))).
  - refine (proj1 (add_closed c V X a b r _ _ _)); [apply IH; assumption|apply IH; assumption|assumption].
  - refine (sub_pattern c V X a b r _ _ _ _); [apply IH; assumption|apply IH; assumption|assumption|assumption].
  - refine (proj1 (mul_closed c V X a b r _ _ _)); [apply IH; assumption|apply IH; assumption|assumption].
  - refine (proj1 (div_closed c V X a b r _ _ _)); [apply IH; assumption|apply IH; assumption|assumption].
  - refine (proj1 (fma_closed c V X a b d r _ _ _ _)); [apply IH; assumption|apply IH; assumption|apply IH; assumption|assumption].
  - refine (proj1 (dot_closed c V X l r _ _)); [|assumption].
    clear - IH H V X. revert l H. fix IL 2. intros l H. destruct H as [|p l [A B] H]; constructor; [split; apply IH; assumption|apply IL; assumption].
  - refine (proj1 (pm_closed c V X a b d e false r _ _ _ _ _)); [apply IH; assumption|apply IH; assumption|apply IH; assumption|apply IH; assumption|assumption].
  - refine (proj1 (pm_closed c V X a b d e true r _ _ _ _ _)); [apply IH; assumption|apply IH; assumption|apply IH; assumption|apply IH; assumption|assumption].
  - refine (neg_pattern c V a r _ _ _); [apply IH; assumption|assumption|assumption].
  - refine (abs_pattern c V a r _ _ _); [apply IH; assumption|assumption|assumption].
  - refine (abs_pattern c V a r _ _ _); [apply IH; assumption|assumption|assumption].
  - refine (inv_pattern c V X a r _ _); [apply IH; assumption|assumption].
  - refine (proj1 (half_closed c V a r _ _)); [apply IH; assumption|assumption].
  - refine (twice_pattern c V a r _ _); [apply IH; assumption|assumption].
  - refine (next_pattern c V a r _ _ _); [apply IH; assumption|assumption|assumption].
  - refine (proj1 (prev_closed c V a r _ _)); [apply IH; assumption|assumption].
  - apply (minmax_in c (pattern c)); apply IH; assumption.
  - apply (minmax_in c (pattern c)); apply IH; assumption.
Qed.
Lemma finite_real : forall c v, finite c v -> valid_cfg c -> exp_ok c -> real c v.
Proof.
  fix IH 3. intros c v K V X.
  assert (RP := real_pattern c V). destruct K.
  - destruct (constants c V) as (_ & _ & _ & _ & Z & O & M & _ & MX & MN & LW & _). destruct H as [<-|[<-|[<-|[<-|[<-|[<-|[]]]]]]]; assumption.
  - eapply of_int_real; eassumption.
  - eapply of_float_real; eassumption.
  - assert (R0 : real c0 v) by (apply IH; assumption). refine (proj2 (convert_closed c V X c0 v r _ _ _ _) R0); try assumption. apply (real_pattern c0); assumption.
  - assert (RA : real c a) by (apply IH; assumption). assert (RB : real c b) by (apply IH; assumption). refine (proj2 (add_closed c V X a b r _ _ _) RA RB); auto.
  - refine (sub_real c V X a b r _ _ _); [apply IH; assumption|apply IH; assumption|assumption].
  - assert (RA : real c a) by (apply IH; assumption). assert (RB : real c b) by (apply IH; assumption). refine (proj2 (mul_closed c V X a b r _ _ _) RA RB); auto.
  - assert (RA : real c a) by (apply IH; assumption). assert (RB : real c b) by (apply IH; assumption). refine (proj2 (div_closed c V X a b r _ _ _) RA RB _); auto.
  - assert (RA : real c a) by (apply IH; assumption). assert (RB : real c b) by (apply IH; assumption). assert (RD : real c d) by (apply IH; assumption).
    refine (proj2 (fma_closed c V X a b d r _ _ _ _) RA RB RD); auto.
  - assert (RL : Forall (fun p => real c (fst p) /\ real c (snd p)) l).
    { clear - IH H V X. revert l H. fix IL 2. intros l H. destruct H as [|p l [A B] H]; constructor; [split; apply IH; assumption|apply IL; assumption]. }
    refine (proj2 (dot_closed c V X l r _ _) RL); [|assumption]. eapply Forall_impl; [|exact RL]. intros p [A B]. auto.
  - assert (RA : real c a) by (apply IH; assumption). assert (RB : real c b) by (apply IH; assumption). assert (RD : real c d) by (apply IH; assumption). assert (RE : real c e) by (apply IH; assumption).
    refine (proj2 (pm_closed c V X a b d e false r _ _ _ _ _) RA RB RD RE); auto.
  - assert (RA : real c a) by (apply IH; assumption). assert (RB : real c b) by (apply IH; assumption). assert (RD : real c d) by (apply IH; assumption). assert (RE : real c e) by (apply IH; assumption).
    refine (proj2 (pm_closed c V X a b d e true r _ _ _ _ _) RA RB RD RE); auto.
  - assert (RA : real c a) by (apply IH; assumption). rewrite (p_neg_real c a V RA) in H. injection H as <-. vcb V. apply (real_opp c BN Bes). exact RA.
  - assert (RA : real c a) by (apply IH; assumption). rewrite (p_abs_real c a V RA) in H. injection H as <-. unfold real in *. lia.
  - assert (RA : real c a) by (apply IH; assumption). refine (proj2 (half_closed c V a r _ _) RA); auto.
  - assert (RA : real c a) by (apply IH; assumption). refine (proj2 (prev_closed c V a r _ _) RA); auto.
  - apply (minmax_in c (real c)); apply IH; assumption.
  - apply (minmax_in c (real c)); apply IH; assumption.
Qed.
Lemma computed_exit : exists c a n r s, valid_cfg c /\ exp_ok c /\ computed c a /\ computed c n /\
  p_neg c n = Ok r /\ ~ pattern c r /\ p_next c a = Ok s /\ ~ pattern c s.
Proof.
  exists p10, 511, (-512), 512, 512. split; [apply valid_p10|]. split; [vm_compute; reflexivity|].
  split; [apply k_const; do 4 right; left; reflexivity|]. split; [apply k_const; do 7 right; left; reflexivity|].
  split; [reflexivity|]. split; [vm_compute; intuition congruence|]. split; [reflexivity|vm_compute; intuition congruence].
Qed.
