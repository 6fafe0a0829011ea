(** Searches in the table loaded from the listing. *)
From Coq Require Import ZArith QArith Qabs Bool List String Ascii Sorted Lia Lqa.
From Verif Require Import Res CInt Traits Unpacked Cfg Spec SpecFloat SpecAny Posit FloatOps AnyFloat Asimd Soft ListP Dump SpecDump QPow Core Arith SpecLemmas DecodeProof EncodeProof UOps UAdd Ops
  Final1 Final4 Conv1 Conv5 Specials FloatProof PositFProof PositFProof2 AnyProof AnyProof2 AnyProof3 SoftProof ListProof DumpProof DumpProof2 DumpProof3 DumpProof4 DumpProof5.
Import ListNotations.
Open Scope Z_scope.

Lemma sq_mono p y : (0 < p -> p <= y -> p * p <= y * y)%Q.
Proof. intros P L. apply Qle_trans with (y * p)%Q; [|rewrite (Qmult_comm y p)]; apply Qmult_le_compat_r; lra. Qed.

Section r.
Context (rnd : Q -> Z) (pw : Z -> Z) (c : cfg).
Hypothesis RN : rounding 11 52 rnd.
Hypothesis V : valid_cfg c.
Hypothesis FF : frac_fits c.
Hypothesis FC : float_covers c 11 52.
Hypothesis N54 : cN c <= 54.
Notation third := (third c).
Notation columns := (columns rnd c).

Lemma f_eq_double a b x y : is_double a x -> is_double b y -> f_eq 11 52 a b = true <-> (x == y)%Q.
Proof using. clear. intros (_ & p & I & P) (_ & q & J & Q). rewrite f_eq_spec, I, J. cbn [x_eq]. rewrite P, Q. reflexivity. Qed.
Lemma find_signed v d : real c v -> is_double d (inject_Z v) -> m_find (t_signed columns) d 1 = Some (v + maxreal c + 1).
Proof using RN V N54.
  intros R D. cbn [DumpProof.columns t_signed]. unfold posits. pose proof (mb c V) as M. unfold real in R. rewrite (find_zup _ d v); [f_equal; lia|lia|].
  intros w W. assert (RW : real c w) by (unfold real; lia). pose proof (f_eq_double _ _ _ _ (first_is rnd c RN V N54 w RW) D) as E.
  destruct (Z.eqb_spec w v) as [->|N]; [apply E; reflexivity|]. destruct (f_eq 11 52 (rnd (inject_Z w)) d); [exfalso; apply N; apply (proj1 (inject_eq _ _)); apply E|]; reflexivity.
Qed.
Lemma second_inj v w : real c v -> real c w -> second c v = second c w -> v = w.
Proof using V.
  intros R S. pose proof (mb c V) as M. vcb V. unfold real, second in *. destruct (Z.eqb_spec (cH c) 8) as [E|E]; [|auto]. intros H.
  pose proof (pow2_mono (cN c - 1) 7 ltac:(lia)) as P. change (2 ^ 7) with 128 in P.
  assert (X : forall u, -128 < u < 128 -> u mod 256 = if u <? 0 then u + 256 else u).
  { intros u U. destruct (Z.ltb_spec u 0); [rewrite <- (Z_mod_plus_full u 1 256), Z.mul_1_l|]; apply Z.mod_small; lia. }
  rewrite !X in H by lia. destruct (Z.ltb_spec v 0), (Z.ltb_spec w 0); lia.
Qed.
Lemma find_unsigned v d : real c v -> is_double d (inject_Z (second c v)) -> m_find (t_unsigned columns) d 1 = Some (v + maxreal c + 1).
Proof using RN V N54.
  intros R D. cbn [DumpProof.columns t_unsigned]. unfold posits. pose proof (mb c V) as M. assert (R' := R). unfold real in R. rewrite (find_zup _ d v); [f_equal; lia|lia|].
  intros w W. assert (RW : real c w) by (unfold real; lia). pose proof (f_eq_double _ _ _ _ (second_is rnd c RN V N54 w RW) D) as E.
  destruct (Z.eqb_spec w v) as [->|N]; [apply E; reflexivity|]. destruct (f_eq 11 52 (rnd (inject_Z (second c w))) d); [exfalso; apply N; apply (second_inj w v RW R'); apply (proj1 (inject_eq _ _)); apply E|]; reflexivity.
Qed.
Lemma at_row {A} (g : Z -> A) v : real c v -> nth_error (map g (posits c)) (Z.to_nat (v + maxreal c + 1 - 1)) = Some (g v).
Proof using V. intros R. apply map_nth_error. replace (v + maxreal c + 1 - 1) with (v + maxreal c) by lia. apply posits_nth; assumption. Qed.
Lemma m_at_row g v : real c v -> m_at (map g (posits c)) (v + maxreal c + 1) = Some (g v).
Proof using V. intros R. unfold m_at. unfold real in R. destruct (Z.leb_spec 1 (v + maxreal c + 1)); [|lia]. apply at_row. exact R. Qed.

(** Squares of distances. *)
Definition dist (d w : Z) : Z := m_sq rnd (m_sub rnd (third w) d).
Lemma dist_zero v d : real c v -> is_double d (value c v) -> nil_d (dist d v).
Proof using RN V FF FC.
  intros R D. unfold dist. assert (Z0 : is_float 11 52 (value c v - value c v)) by (apply (is_float_comp 11 52 (inject_Z 0)); [change (inject_Z 0) with 0%Q; ring|apply int_double; lia]).
  pose proof (sub_exact rnd RN _ _ _ _ (third_is c V FF FC v R) D Z0) as S. destruct (sq_ok rnd RN _ _ S) as [S1 S2].
  pose proof (round_exact 11 52 rnd RN 0 ltac:(change 0%Q with (inject_Z 0); apply int_double; lia)) as RE. cbn [x_round] in RE.
  assert (E : same_ext (ieee_val 11 52 (m_sq rnd (m_sub rnd (third v) d))) (FinVal 0)).
  { eapply same_trans; [exact S2|]. eapply same_trans; [|exact RE]. apply rnd_same; [exact RN|ring]. }
  unfold nil_d. destruct (ieee_val 11 52 _) as [z| |]; cbn [same_ext] in E; try discriminate. exists z. split; [reflexivity|exact E].
Qed.
Lemma dist_nonneg v w d : real c v -> real c w -> is_double d (value c v) -> nil_d (dist d w) \/ pos_d (dist d w).
Proof using RN V FF FC.
  intros R W D. destruct (sub_ok rnd RN _ _ _ _ (third_is c V FF FC w W) D) as [S1 S2].
  assert (X : exists x, ieee_val 11 52 (rnd (value c w - value c v)) = FinVal x \/ exists s, ieee_val 11 52 (rnd (value c w - value c v)) = InfVal s).
  { destruct (ieee_val 11 52 (rnd (value c w - value c v))) as [x|s|] eqn:E; [exists x; auto|exists 0%Q; eauto|destruct (round_not_nan 11 52 rnd RN _ E)]. }
  destruct X as (x & [X|(s & X)]); rewrite X in S2.
  - destruct (sq_ok rnd RN _ _ (val_is_double _ _ S1 S2)) as [Q1 Q2]. fold (dist d w) in Q2.
    pose proof (rn_mono _ _ _ RN 0 (x * x) ltac:(nra)) as MO.
    pose proof (round_exact 11 52 rnd RN 0 ltac:(change 0%Q with (inject_Z 0); apply int_double; lia)) as RE. cbn [x_round] in RE.
    unfold nil_d, pos_d. destruct (ieee_val 11 52 (rnd 0)) as [z| |]; cbn [same_ext] in RE; try discriminate.
    destruct (ieee_val 11 52 (rnd (x * x))) as [y|[]|]; cbn [ext_le] in MO; try contradiction; destruct (ieee_val 11 52 (dist d w)) as [u|t|]; cbn [same_ext] in Q2; try discriminate.
    + destruct (Qlt_le_dec 0 u); [right; exact q|left; exists u; split; [reflexivity|lra]].
    + injection Q2 as ->. right. exact I.
  - right. unfold pos_d, dist, m_sq. cbn [same_ext] in S2. assert (E : ieee_val 11 52 (m_sub rnd (third w) d) = InfVal s) by (destruct (ieee_val 11 52 (m_sub rnd (third w) d)); cbn [same_ext] in S2; congruence).
    destruct (f_mul_gives 11 52 rnd fmt_d RN _ _ S1 S1) as (_ & G & _). rewrite G, E. cbn [x_mul x_round]. rewrite xorb_nilpotent. exact I.
Qed.
Lemma toindex_zup d : toindex rnd columns MFloat d = Some (m_argmin (map (dist d) (zup (- maxreal c + 1) (Z.to_nat (2 * maxreal c)))) 2 (dist d (- maxreal c)) 1).
Proof using.
  unfold toindex. cbn [DumpProof.columns t_float]. rewrite map_map. unfold posits. cbn [zup map]. reflexivity.
Qed.
Definition reach : Prop := (cN c - 2) * 2 ^ ces c + (cN c - 3 - ces c) <= 537.
Lemma dist_pos v w d : reach -> real c v -> real c w -> v <> w -> is_double d (value c v) -> pos_d (dist d w).
Proof using RN V FF FC.
  intros RE R W N D. pose proof (emax_bound c V FC) as [EB GB]. vcb V.
  assert (RE' : emax c + gran c <= 537) by exact RE. set (g := - emax c - gran c) in *.
  assert (GF : is_float 11 52 (pow2 g)) by (apply (is_float_pow2 11 52 fmt_d); cbn; lia). pose proof (is_float_opp 11 52 fmt_d _ GF) as GF'.
  assert (G2 : is_float 11 52 (pow2 (g + g))) by (apply (is_float_pow2 11 52 fmt_d); cbn; lia).
  pose proof (pow2_pos g) as PG. pose proof (pow2_pos (g + g)) as PG2.
  assert (FAR : (pow2 g <= value c w - value c v \/ value c w - value c v <= - pow2 g)%Q).
  { destruct (grid c V FC v R) as (z & Z). destruct (grid c V FC w W) as (y & Y). fold g in Z, Y.
    assert (NE : y <> z).
    { intros ->. assert (E : (value c v == value c w)%Q) by (rewrite Z, Y; reflexivity). pose proof (mb c V). unfold real in *.
      destruct (Z.lt_trichotomy v w) as [L|[L|L]]; [|congruence|]; [pose proof (value_lt c BN Bes v w ltac:(lia) L ltac:(lia))|pose proof (value_lt c BN Bes w v ltac:(lia) L ltac:(lia))]; lra. }
    rewrite Z, Y. unfold dy. destruct (Z_lt_le_dec z y) as [L|L].
    - left. assert (E : (inject_Z (z + 1) <= inject_Z y)%Q) by (rewrite <- Zle_Qle; lia). rewrite inject_Z_plus in E. change (inject_Z 1) with 1%Q in E. nra.
    - right. assert (E : (inject_Z (y + 1) <= inject_Z z)%Q) by (rewrite <- Zle_Qle; lia). rewrite inject_Z_plus in E. change (inject_Z 1) with 1%Q in E. nra. }
  destruct (sub_ok rnd RN _ _ _ _ (third_is c V FF FC w W) D) as [S1 S2].
  assert (E1 : forall s, ieee_val 11 52 (m_sub rnd (third w) d) = InfVal s -> pos_d (dist d w)).
  { intros s E. unfold pos_d, dist, m_sq. destruct (f_mul_gives 11 52 rnd fmt_d RN _ _ S1 S1) as (_ & G & _). rewrite G, E. cbn [x_mul x_round]. rewrite xorb_nilpotent. exact I. }
  destruct (ieee_val 11 52 (rnd (value c w - value c v))) as [x|s|] eqn:X.
  2:{ apply (E1 s). destruct (ieee_val 11 52 (m_sub rnd (third w) d)); cbn [same_ext] in S2; congruence. }
  2:{ destruct (round_not_nan 11 52 rnd RN _ X). }
  destruct (sq_ok rnd RN _ _ (val_is_double _ _ S1 S2)) as [Q1 Q2]. fold (dist d w) in Q2.
  assert (XX : (pow2 (g + g) <= x * x)%Q).
  { rewrite pow2_plus. destruct FAR as [F|F]; [pose proof (rnd_ge 11 52 rnd RN _ _ GF F x X) as B|pose proof (rnd_le 11 52 rnd RN _ _ GF' F x X) as B]; [apply sq_mono; assumption|].
    setoid_replace (x * x)%Q with (- x * - x)%Q by ring. apply sq_mono; [assumption|lra]. }
  pose proof (rn_mono _ _ _ RN _ _ XX) as MO. destruct (rn_exact _ _ _ RN _ G2) as (k & K & KE). rewrite K in MO.
  unfold pos_d. destruct (ieee_val 11 52 (rnd (x * x))) as [y|[]|]; cbn [ext_le] in MO; try contradiction; destruct (ieee_val 11 52 (dist d w)) as [u|t|]; cbn [same_ext] in Q2; try discriminate.
  - cbn [x_lt]. lra.
  - injection Q2 as ->. exact I.
Qed.
Lemma find_float v d : reach -> real c v -> is_double d (value c v) -> toindex rnd columns MFloat d = Some (v + maxreal c + 1).
Proof using RN V FF FC.
  intros RE R D. rewrite toindex_zup. f_equal. pose proof (mb c V) as M. assert (R' := R). unfold real in R'.
  destruct (Z.eq_dec v (- maxreal c)) as [->|N].
  - rewrite argmin_stay; [lia|apply dist_zero; assumption|]. intros x I. apply in_map_iff in I. destruct I as (w & <- & I). apply zup_in in I.
    apply (dist_nonneg (- maxreal c)); try assumption. unfold real. lia.
  - rewrite (argmin_find (dist d) v); [lia|apply (dist_pos v); try assumption; try lia; unfold real; lia|lia|apply dist_zero; assumption|].
    intros w W NW. apply (dist_pos v); try assumption; try lia; unfold real; lia.
Qed.
(** When the distance of two posits has a square that rounds to zero the first one is found. *)
Lemma find_first v w d i : real c v -> real c w -> w < v -> is_double d (value c v) -> nil_d (dist d w) -> toindex rnd columns MFloat d = Some i -> 1 <= i <= w + maxreal c + 1.
Proof using RN V FF FC.
  intros R W L D Z H. pose proof (mb c V) as M. rewrite toindex_zup in H. set (k := Z.to_nat (2 * maxreal c)) in H.
  assert (KK : Z.of_nat k = 2 * maxreal c) by lia. clearbody k. injection H as <-. assert (W' := W). unfold real in W'.
  destruct (Z.eq_dec w (- maxreal c)) as [->|N].
  - rewrite argmin_stay; [lia|exact Z|]. intros x I. apply in_map_iff in I. destruct I as (u & <- & I). apply zup_in in I. apply (dist_nonneg v); try assumption. unfold real. lia.
  - pose proof (argmin_first (dist d) w k (- maxreal c + 1) 2 (dist d (- maxreal c)) 1) as A.
    specialize (A ltac:(apply (dist_nonneg v); try assumption; unfold real; lia) ltac:(lia) ltac:(lia) Z). 
    assert (X : forall x, - maxreal c + 1 <= x < - maxreal c + 1 + Z.of_nat k -> nil_d (dist d x) \/ pos_d (dist d x)) by (intros x I; apply (dist_nonneg v); try assumption; unfold real; lia).
    specialize (A X). lia.
Qed.

Section loaded.
Context (m : nat) (file : list Z) (t : table) (s : summary).
Hypothesis FI : d_file rnd pw c "Biov" m = Some (Ok file).
Hypothesis LO : loadpositdump rnd file = Some (t, s).

Lemma finds v : real c v -> exists i, (exists d, fromindex t MSigned i = Some d /\ is_double d (inject_Z v)) /\ (exists d, fromindex t MFloat i = Some d /\ is_double d (value c v)) /\
  (forall d, is_double d (inject_Z v) -> toindex rnd t MSigned d = Some i) /\
  (forall d, (cN c - 2) * 2 ^ ces c + (cN c - 3 - ces c) <= 537 -> is_double d (value c v) -> toindex rnd t MFloat d = Some i) /\
  (forall d, fromindex t MUnsigned i = Some d -> toindex rnd t MUnsigned d = Some i).
Proof using RN V FF FC N54 FI LO.
  intros R. destruct (t_is rnd pw c V FF FC m file t s FI LO) as [-> _]. exists (v + maxreal c + 1).
  split; [eexists; split; [apply (m_at_row (fun v => rnd (inject_Z v))); exact R|apply (first_is rnd c); assumption]|].
  split; [eexists; split; [apply (m_at_row third); exact R|apply third_is; assumption]|].
  split; [intros d D; apply find_signed; assumption|]. split; [intros d RE D; apply find_float; assumption|].
  intros d D. cbn [fromindex DumpProof.columns t_unsigned] in D. rewrite (m_at_row (fun v => rnd (inject_Z (second c v)))) in D by exact R. injection D as <-.
  apply find_unsigned; [exact R|]. apply (second_is rnd c); assumption.
Qed.
Lemma limits mi ma ex t' s' : limittab t mi ma ex = Some (t', s') ->
  rectangular t /\ rectangular t' /\ (exists keep, (forall r, keep r = true <-> within mi ma ex r) /\ rows t' = filter keep (rows t)) /\
  greatest_of (t_float t') (s_max s') /\ least_of (t_float t') (s_min s') /\ least_of (t_res t') (s_minres s') /\ greatest_of (t_res t') (s_maxres s').
Proof using RN V FF FC N54 FI LO.
  destruct (t_is rnd pw c V FF FC m file t s FI LO) as [-> _]. intros H. pose proof (columns_rect rnd c) as RC.
  assert (B : forall d, In d (t_float columns) -> 0 <= d < 2 ^ 64) by (intros d I; destruct (float_dbl rnd c V FF FC d I) as (v & _ & K & _); exact (is_double_dbl _ _ K)).
  destruct (limit_ok columns mi ma ex t' s' RC B H) as (A1 & A2 & A3 & A4). split; [exact RC|]. split; [exact A1|]. split; [exact A2|].
  destruct (describe_ok t' s' A3 A4) as (D1 & D2 & D3 & D4 & _). auto.
Qed.
Lemma misses w v d i x : real c v -> real c w -> w < v -> is_double d (value c v) -> nil_d (dist d w) ->
  toindex rnd t MFloat d = Some i -> fromindex t MSigned i = Some x -> ~ is_double x (inject_Z v).
Proof using RN V FF FC N54 FI LO.
  intros R W L D Z. destruct (t_is rnd pw c V FF FC m file t s FI LO) as [-> _]. intros H K E.
  pose proof (find_first v w d i R W L D Z H) as B. pose proof (mb c V) as M. assert (R' := R). assert (W' := W). unfold real in R', W'.
  set (u := i - maxreal c - 1). assert (RU : real c u) by (unfold real; lia). replace i with (u + maxreal c + 1) in K by lia.
  cbn [fromindex DumpProof.columns t_signed] in K. rewrite (m_at_row (fun v => rnd (inject_Z v))) in K by exact RU. injection K as <-.
  pose proof (is_double_inj _ _ _ E (first_is rnd c RN V N54 u RU)) as Q. apply (proj1 (inject_eq _ _)) in Q. lia.
Qed.
End loaded.
End r.

Lemma same_nil d z : same_ext (ieee_val 11 52 d) (FinVal z) -> (z == 0)%Q -> nil_d d.
Proof. intros T Z. unfold nil_d. destruct (ieee_val 11 52 d) as [u| |]; cbn [same_ext] in T; try discriminate. exists u. split; [reflexivity|]. rewrite T. exact Z. Qed.

(** A format whose smallest posits are too close. *)
Definition close := Cfg 16 11 6 16 WithNan.
Lemma close_valid : valid_cfg close /\ frac_fits close /\ float_covers close 11 52 /\ cN close <= 54 /\ end_ok close.
Proof.
  split; [split; cbn; unfold is_width; try lia; try tauto|]. split; [unfold frac_fits; cbn; lia|]. split; [unfold float_covers; cbn; lia|]. split; [cbn; lia|]. left. cbn. lia.
Qed.
Lemma close_value : (value close 1 == pow2 (-576))%Q. Proof. vm_compute. reflexivity. Qed.
Lemma close_sq : nil_d (rne 11 52 (pow2 (-1150))). Proof. eexists. split; vm_compute; reflexivity. Qed.
Lemma close_misses pw m file t s d i x : d_file (rne 11 52) pw close "Biov" m = Some (Ok file) -> loadpositdump (rne 11 52) file = Some (t, s) ->
  is_double d (value close 1) -> toindex (rne 11 52) t MFloat d = Some i -> fromindex t MSigned i = Some x -> ~ is_double x (inject_Z 1).
Proof.
  intros F L D H K. destruct close_valid as (V & FF & FC & N54 & _). pose proof (rne_rounding 11 52 fmt_d) as RN.
  assert (R1 : real close (-1)) by (unfold real; cbn; lia). assert (R2 : real close 1) by (unfold real; cbn; lia).
  refine (misses (rne 11 52) pw close RN V FF FC N54 m file t s F L (-1) 1 d i x R2 R1 eq_refl D _ H K). clear H K F L.
  assert (E : (value close (-1) - value close 1 == - pow2 (-575))%Q).
  { vm_compute. reflexivity. }
  assert (FL : is_float 11 52 (value close (-1) - value close 1)) by (apply (is_float_comp 11 52 (- pow2 (-575))); [symmetry; exact E|apply (is_float_opp 11 52 fmt_d), (is_float_pow2 11 52 fmt_d); cbn; lia]).
  pose proof (sub_exact (rne 11 52) RN _ _ _ _ (third_is close V FF FC (-1) R1) D FL) as S. destruct (sq_ok (rne 11 52) RN _ _ S) as [_ S2]. fold (dist (rne 11 52) close d (-1)) in S2.
  pose proof close_sq as (z & Z1 & Z2). assert (T : same_ext (ieee_val 11 52 (dist (rne 11 52) close d (-1))) (FinVal z)).
  { rewrite <- Z1. eapply same_trans; [exact S2|]. apply (rnd_same (rne 11 52) RN). rewrite E. replace (-1150) with (-575 + -575) by lia. rewrite pow2_plus. ring. }
  exact (same_nil _ z T Z2).
Qed.
Lemma close_refuted : (valid_cfg close /\ frac_fits close /\ float_covers close 11 52) /\
  forall pw m file t s d i x, d_file (rne 11 52) pw close "Biov" m = Some (Ok file) -> loadpositdump (rne 11 52) file = Some (t, s) ->
  is_double d (value close 1) -> toindex (rne 11 52) t MFloat d = Some i -> fromindex t MSigned i = Some x -> ~ is_double x (inject_Z 1).
Proof. split; [destruct close_valid as (A & B & C & _); auto|exact close_misses]. Qed.

Definition tiny := Cfg 8 3 0 8 WithNan.
Lemma tiny_ok : rounding 11 52 (rne 11 52) /\ valid_cfg tiny /\ frac_fits tiny /\ float_covers tiny 11 52 /\
  exists file t s, d_file (rne 11 52) (fun _ => 0) tiny "Biov" 8 = Some (Ok file) /\ loadpositdump (rne 11 52) file = Some (t, s) /\
    List.length (t_float t) = 7%nat /\ is_double (s_max s) 2 /\ is_double (s_smallest s) (1 # 2) /\ is_double (s_maxres s) (3 # 4).
Proof.
  split; [exact (rne_rounding 11 52 fmt_d)|]. split; [split; cbn; unfold is_width; try lia; tauto|]. split; [unfold frac_fits; cbn; lia|]. split; [unfold float_covers; cbn; lia|].
  do 3 eexists. split; [vm_compute; reflexivity|]. split; [vm_compute; reflexivity|]. split; [reflexivity|].
  cbn [s_max s_smallest s_maxres]. split; [|split]; (split; [lia|eexists; split; [vm_compute; reflexivity|vm_compute; reflexivity]]).
Qed.
