(** Constants and order of the tabulated classes, posit12 arithmetic, SIMD lanes, software half floats. *)
From Coq Require Import ZArith QArith Qabs Qminmax List Bool Lia Lqa.
From Verif Require Import Res CInt Traits Unpacked Cfg Posit Configs Spec QPow Core SpecLemmas Arith DecodeProof EncodeProof
  UOps UAdd Ops OpsAdd OpsUnary OpsUnary2 Specials Room Laws Final1 Final2 Final3 Conv1 Conv5 SpecTab Tab Half TabProof TabProof2 TabProof3.
From Verif Require Tbl8 Tbl12.
Import ListNotations.
Open Scope Z_scope.

(** ** Constants and predicates *)
Lemma valid_t10 : valid_cfg t10. Proof. cfg_tac. Qed.

Lemma t8_constants : (value p8 t8_one == 1)%Q /\ (value p8 t8_onehalf == 1 # 2)%Q /\
  t8_max = maxreal p8 /\ t8_min = 1 /\ is_nan p8 t8_nan /\ t8_pinfinity = inf_of p8 false /\ t8_ninfinity = inf_of p8 true.
Proof. vm_compute. repeat split; congruence. Qed.
Lemma t8_two_refuted : (value p8 t8_two == 5 # 4)%Q /\ ~ (value p8 t8_two == 2)%Q.
Proof. split; vm_compute; congruence. Qed.
Lemma t8_isnan v : t8_is_nan v = true <-> is_nan p8 v.
Proof. unfold t8_is_nan, is_nan. change (withnan t8) with true. change (P_NAN t8) with (-128). cbn. rewrite Z.eqb_eq. intuition congruence. Qed.
Lemma t8_isinf_refuted : t8_is_infinity (exceptional p8) = true /\ is_nan p8 (exceptional p8) /\ forall v, ~ is_inf p8 v.
Proof.
  split; [reflexivity|]. split; [split; [discriminate|reflexivity]|].
  intros v [[H _]|[[H _]|[H _]]]; discriminate H.
Qed.
Lemma t12_constants : (value p12 t12_one == 1)%Q /\ t12_max = maxreal p12 /\ t12_min = 1 /\ is_nan p12 t12_nan /\
  (forall v, t12_is_nan v = true <-> is_nan p12 v).
Proof.
  split; [vm_compute; reflexivity|]. split; [reflexivity|]. split; [reflexivity|]. split; [split; [discriminate|reflexivity]|].
  intros v. unfold t12_is_nan, is_nan. change (withnan t12) with true. cbn. rewrite Z.eqb_eq. intuition congruence.
Qed.
Lemma t12_refuted : ~ (value p12 t12_onehalf == 1 # 2)%Q /\
  real p12 t12_pinfinity /\ real p12 t12_ninfinity /\ t12_is_infinity (maxreal p12) = true.
Proof. unfold real. vm_compute. repeat split; congruence. Qed.
Lemma t10_constants : (value t10 t10_one == 1)%Q /\ (value t10 t10_two == 2)%Q /\ t10_min = 1 /\ is_nan t10 t10_nan /\
  (forall v, t10_is_nan v = true <-> is_nan t10 v).
Proof.
  split; [vm_compute; reflexivity|]. split; [vm_compute; reflexivity|]. split; [reflexivity|]. split; [split; [discriminate|reflexivity]|].
  intros v. unfold t10_is_nan, is_nan. change (withnan t10) with true. cbn. rewrite Z.eqb_eq. intuition congruence.
Qed.
Lemma t10_refuted : ~ (value t10 t10_onehalf == 1 # 2)%Q /\ (value t10 t10_max < value t10 (maxreal t10))%Q /\
  real t10 t10_pinfinity /\ real t10 t10_ninfinity /\ t10_is_infinity (maxreal t10) = true.
Proof. unfold real. vm_compute. repeat split; congruence. Qed.

(** ** Order *)
Lemma t8_order a b : real p8 a -> real p8 b ->
  (t8_lt a b = true <-> (value p8 a < value p8 b)%Q) /\
  (t8_le a b = true <-> (value p8 a <= value p8 b)%Q) /\
  (t8_gt a b = true <-> (value p8 a > value p8 b)%Q) /\
  (t8_ge a b = true <-> (value p8 a >= value p8 b)%Q) /\
  (t8_eq a b = true <-> (value p8 a == value p8 b)%Q) /\
  (t8_ne a b = true <-> ~ (value p8 a == value p8 b)%Q).
Proof.
  intros A B. pose proof (compare_real p8 a b valid_p8 A B) as H.
  destruct (real8 a A) as (_ & NA & _), (real8 b B) as (_ & NB & _).
  assert (NN : nan_any p8 a b = false).
  { unfold nan_any, isNaN. change (withnan p8) with true. change (P_NAN p8) with (-128). cbn [andb].
    rewrite (proj2 (Z.eqb_neq a (-128)) NA), (proj2 (Z.eqb_neq b (-128)) NB). reflexivity. }
  unfold p_lt, p_le, p_gt, p_ge, p_ne, p_eq in H. rewrite NN in H. exact H.
Qed.
Lemma t8_order_nan b : real p8 b -> t8_eq (exceptional p8) (exceptional p8) = true /\ t8_lt (exceptional p8) b = true /\
  t8_le (exceptional p8) (exceptional p8) = true.
Proof.
  intros R. destruct (real8 b R) as (_ & _ & B). change (exceptional p8) with (-128). unfold t8_lt, t8_eq, t8_le.
  split; [reflexivity|]. split; [apply Z.ltb_lt; lia|reflexivity].
Qed.
Lemma t8_minmax a b : real p8 a -> real p8 b ->
  (value p8 (t8_stdmin a b) == Qmin (value p8 a) (value p8 b))%Q /\
  (value p8 (t8_stdmax a b) == Qmax (value p8 a) (value p8 b))%Q.
Proof.
  intros A B. destruct (t8_order a b A B) as (_ & L & _ & G & _). unfold t8_stdmin, t8_stdmax. split.
  - destruct (t8_le a b).
    + rewrite Q.min_l; [reflexivity|apply L; reflexivity].
    + rewrite Q.min_r; [reflexivity|]. destruct (Qlt_le_dec (value p8 a) (value p8 b)); [|assumption].
      exfalso. assert (false = true) by (apply L; lra). discriminate.
  - destruct (t8_ge a b).
    + rewrite Q.max_l; [reflexivity|apply G; reflexivity].
    + rewrite Q.max_r; [reflexivity|]. destruct (Qlt_le_dec (value p8 b) (value p8 a)); [|assumption].
      exfalso. assert (false = true) by (apply G; lra). discriminate.
Qed.
Lemma t8_neg_abs v : real p8 v ->
  real p8 (t8_neg v) /\ (value p8 (t8_neg v) == - value p8 v)%Q /\ real p8 (t8_abs v) /\ (value p8 (t8_abs v) == Qabs (value p8 v))%Q.
Proof.
  intros R. pose proof valid_p8 as V. vcb V. rewrite (t8_neg_real v R).
  split; [apply real_opp; assumption|]. split; [apply value_opp; assumption|].
  destruct (abs_real p8 v valid_p8 R) as (r & E & Rr & Er).
  destruct (real8 v R) as (P & _). destruct (agree8_unary v P) as (_ & _ & _ & _ & A & _). rewrite A in E. injection E as <-.
  split; assumption.
Qed.
Lemma t8_eps : exists e, t8_epsilon = Ok e /\ (value p8 e == value p8 t8_afterone - value p8 t8_one)%Q /\ (value p8 e == 1 # 32)%Q.
Proof. exists 2. vm_compute. auto. Qed.

(** ** posit12 arithmetic *)
Lemma exp_p12 : exp_ok p12. Proof. unfold exp_ok. cbn. lia. Qed.
Lemma mul_p12 : mul_fits p12. Proof. unfold mul_fits. cbn. lia. Qed.
Lemma add_p12 : add_fits p12. Proof. unfold add_fits. cbn. lia. Qed.
Lemma roomy_p12 : roomy p12. Proof. unfold roomy. cbn. lia. Qed.
Lemma t12_mul_rounds a b : real p12 a -> real p12 b ->
  exists r, t12_mul a b = Ok r /\ rounds_tz p12 (value p12 a * value p12 b) r.
Proof.
  intros A B. exact (proj1 (mul_total p12 a b valid_p12 exp_p12 mul_p12 A B) (roomy_room _ _ valid_p12 roomy_p12)).
Qed.
Lemma t12_div_rounds a b : real p12 a -> real p12 b -> b <> 0 ->
  exists r, t12_div a b = Ok r /\ rounds_tz p12 (value p12 a / value p12 b) r.
Proof.
  intros A B N. exact (proj1 (div_total p12 a b valid_p12 exp_p12 mul_p12 A B N) (roomy_room _ _ valid_p12 roomy_p12)).
Qed.
Lemma t12_two : p_of_int t12 2 = Ok 1152. Proof. vm_compute. reflexivity. Qed.
Lemma real_two12 : real p12 1152. Proof. unfold real. cbn. lia. Qed.
Lemma t12_half_rounds v : real p12 v -> exists r, t12_half v = Ok r /\ rounds_tz p12 (value p12 v / 2) r.
Proof.
  intros R. unfold t12_half. rewrite t12_two. cbn [bind].
  destruct (t12_div_rounds v 1152 R real_two12 ltac:(lia)) as (r & E & H). exists r. split; [exact E|].
  pose proof valid_p12 as V. vcb V. refine (rounds_tz_comp p12 BN Bes _ _ _ _ H).
  assert (T : (value p12 1152 == 2)%Q) by (vm_compute; reflexivity). rewrite T. reflexivity.
Qed.
Lemma t12_twice_rounds v : real p12 v -> exists r, t12_twice v = Ok r /\ rounds_tz p12 (2 * value p12 v) r.
Proof.
  intros R. unfold t12_twice. rewrite t12_two. cbn [bind].
  destruct (t12_mul_rounds v 1152 R real_two12) as (r & E & H). exists r. split; [exact E|].
  pose proof valid_p12 as V. vcb V. refine (rounds_tz_comp p12 BN Bes _ _ _ _ H).
  assert (T : (value p12 1152 == 2)%Q) by (vm_compute; reflexivity). rewrite T. ring.
Qed.
(** NaN: the negation of NaN is a pattern outside the format, and NaN as right operand is ignored. *)
Lemma t12_nan_refuted : is_nan p12 (exceptional p12) /\ ~ pattern p12 (t12_neg (exceptional p12)) /\
  t12_is_nan (t12_neg (exceptional p12)) = false /\
  exists r, t12_mul t12_one (exceptional p12) = Ok r /\ ~ is_nan p12 r.
Proof.
  split; [split; [discriminate|reflexivity]|]. split; [unfold pattern; vm_compute; intuition congruence|].
  split; [reflexivity|]. eexists. split; [vm_compute; reflexivity|]. intros [_ H]. discriminate H.
Qed.

(** ** SIMD lanes *)
Lemma i8_int8 x : byte x -> i8 x = int8 x.
Proof.
  intros B. unfold byte in B.
  assert (H : forallb (fun x => i8 x =? int8 x) (zseq 0 256) = true) by (vm_compute; reflexivity).
  apply Z.eqb_eq, (zall _ _ _ H x). lia.
Qed.
Lemma lanes_spec {A B} (f : A -> res B) (g : A -> B) l : Forall (fun x => f x = Ok (g x)) l -> lanes f l = Ok (map g l).
Proof.
  induction 1 as [|x l H _ IH]; [reflexivity|]. cbn [lanes map]. rewrite H. cbn [bind]. rewrite IH. reflexivity.
Qed.
Lemma byte_i8 x : byte x -> t8_uu (i8 x) = x /\ pattern p8 (i8 x).
Proof.
  intros B. unfold byte in B.
  assert (H : forallb (fun x => (t8_uu (i8 x) =? x) && (-128 <=? i8 x) && (i8 x <? 128)) (zseq 0 256) = true) by (vm_compute; reflexivity).
  pose proof (zall _ _ _ H x ltac:(lia)) as G. cbv beta in G. repeat rewrite andb_true_iff in G. destruct G as [[G1 G2] G3].
  apply Z.eqb_eq in G1. apply Z.leb_le in G2. apply Z.ltb_lt in G3. split; [exact G1|]. exact (conj G2 G3).
Qed.
Lemma tab_get_byte rows i r : tab_get 8 256 rows i = Ok r -> byte r.
Proof.
  unfold tab_get. destruct (_ || _); [discriminate|]. intros H. injection H as <-.
  rewrite Z.land_ones by lia. unfold byte. apply Z.mod_pos_bound. lia.
Qed.
Lemma lane1 rows f x : (forall v, f v = t8_get1 rows v) -> (forall v, pattern p8 v -> exists r, f v = Ok r) ->
  byte x -> exists y s, tab_get 8 256 rows x = Ok y /\ byte y /\ f (i8 x) = Ok s /\ y = cast (uint 8) s.
Proof.
  intros F T B. destruct (byte_i8 x B) as [U P]. destruct (T _ P) as [s E]. rewrite F in E. unfold t8_get1 in E.
  rewrite U in E. destruct (tab_get 8 256 rows x) as [y|] eqn:G; [|discriminate].
  cbn [bind] in E. injection E as <-. pose proof (tab_get_byte _ _ _ G) as By.
  exists y, (i8 y). split; [reflexivity|]. split; [exact By|]. split.
  - rewrite F. unfold t8_get1. rewrite U, G. reflexivity.
  - destruct (byte_i8 y By) as [U' _]. unfold t8_uu in U'. congruence.
Qed.
Lemma lane2 rows f x x' : (forall a b, f a b = t8_get2 rows a b) ->
  (forall a b, pattern p8 a -> pattern p8 b -> exists r, f a b = Ok r) ->
  byte x -> byte x' -> exists y s, tab_get 8 256 rows (x * 256 + x') = Ok y /\ byte y /\ f (i8 x) (i8 x') = Ok s /\ y = cast (uint 8) s.
Proof.
  intros F T B B'. destruct (byte_i8 x B) as [U P], (byte_i8 x' B') as [U' P'].
  destruct (T _ _ P P') as [s E]. rewrite F in E. unfold t8_get2 in E.
  rewrite U, U' in E. destruct (tab_get 8 256 rows (x * 256 + x')) as [y|] eqn:G; [|discriminate].
  cbn [bind] in E. injection E as <-. pose proof (tab_get_byte _ _ _ G) as By.
  exists y, (i8 y). split; [reflexivity|]. split; [exact By|]. split.
  - rewrite F. unfold t8_get2. rewrite U, U', G. reflexivity.
  - destruct (byte_i8 y By) as [U'' _]. unfold t8_uu in U''. congruence.
Qed.
Lemma i8_cast s : pattern p8 s -> i8 (cast (uint 8) s) = s.
Proof.
  intros B. unfold pattern in B. cbn in B.
  assert (H : forallb (fun s => i8 (cast (uint 8) s) =? s) (zseq (-128) 256) = true) by (vm_compute; reflexivity).
  apply Z.eqb_eq, (zall _ _ _ H s). lia.
Qed.
Lemma i8_pattern x : pattern p8 (i8 x).
Proof.
  unfold i8, cast. cbn. unfold pattern, wraps. cbn.
  pose proof (Z.mod_pos_bound (x + 2 ^ (8 - 1)) 256 ltac:(lia)). unfold wraps. cbn in *. lia.
Qed.
Lemma get1_pattern rows v s : t8_get1 rows v = Ok s -> pattern p8 s.
Proof. unfold t8_get1. destruct (tab_get _ _ _ _); cbn [bind]; [|discriminate]. intros H. injection H as <-. apply i8_pattern. Qed.
Lemma get2_pattern rows v w s : t8_get2 rows v w = Ok s -> pattern p8 s.
Proof. unfold t8_get2. destruct (tab_get _ _ _ _); cbn [bind]; [|discriminate]. intros H. injection H as <-. apply i8_pattern. Qed.
Lemma simd1 rows f a : (forall v, f v = t8_get1 rows v) -> (forall v, pattern p8 v -> exists r, f v = Ok r) ->
  Forall byte a -> exists r, simd_lookup1 rows a = Ok r /\ lanewise1 f a r.
Proof.
  intros F T. induction 1 as [|x a Bx _ [r [E [L H]]]].
  - exists []. split; [reflexivity|]. split; [reflexivity|]. cbn. lia.
  - destruct (lane1 rows f x F T Bx) as (y & s & G & By & Es & Ey).
    exists (y :: r). split; [unfold simd_lookup1 in *; cbn [lanes]; rewrite G; cbn [bind]; rewrite E; reflexivity|].
    split; [cbn; congruence|]. intros [|i] Hi; cbn [nth].
    + split; [exact By|]. rewrite <- !i8_int8 by assumption. rewrite Es. f_equal. subst y. symmetry. apply i8_cast.
      rewrite F in Es. exact (get1_pattern _ _ _ Es).
    + apply H. cbn in Hi. lia.
Qed.
Lemma simd2 rows f a : (forall a b, f a b = t8_get2 rows a b) ->
  (forall a b, pattern p8 a -> pattern p8 b -> exists r, f a b = Ok r) ->
  Forall byte a -> forall b, Forall byte b -> length b = length a -> exists r, simd_lookup2 rows a b = Ok r /\ lanewise2 f a b r.
Proof.
  intros F T. induction 1 as [|x a Bx _ IH]; intros b Bb Lb.
  - exists []. split; [reflexivity|]. split; [reflexivity|]. cbn. lia.
  - destruct Bb as [|x' b Bx' Bb]; [discriminate|]. injection Lb as Lb.
    destruct (IH b Bb Lb) as [r [E [L H]]].
    destruct (lane2 rows f x x' F T Bx Bx') as (y & s & G & By & Es & Ey).
    exists (y :: r). split; [unfold simd_lookup2 in *; cbn [combine lanes fst snd]; rewrite G; cbn [bind]; rewrite E; reflexivity|].
    split; [cbn; congruence|]. intros [|i] Hi; cbn [nth].
    + split; [exact By|]. rewrite <- !i8_int8 by assumption. rewrite Es. f_equal. subst y. symmetry. apply i8_cast.
      rewrite F in Es. exact (get2_pattern _ _ _ _ Es).
    + apply H. cbn in Hi. lia.
Qed.
Lemma t8_total2 a b : pattern p8 a -> pattern p8 b -> (exists r, t8_add a b = Ok r) /\ (exists r, t8_mul a b = Ok r) /\ (exists r, t8_div a b = Ok r).
Proof.
  intros A B. repeat split.
  - destruct (chk8_elim _ _ chk8_add a b A B) as (r & E & _). eauto.
  - destruct (chk8_elim _ _ chk8_mul a b A B) as (r & E & _). eauto.
  - destruct (chk8_elim _ _ chk8_div a b A B) as (r & E & _). eauto.
Qed.
Lemma chk8_exp2_total : chk8u Tbl8.opexp2_rows (fun _ _ => true) = true. Proof. vm_compute. reflexivity. Qed.
Lemma simd_lanes a b : Forall byte a -> Forall byte b -> length b = length a ->
  (exists r, simd_add a b = Ok r /\ lanewise2 t8_add a b r) /\
  (exists r, simd_mul a b = Ok r /\ lanewise2 t8_mul a b r) /\
  (exists r, simd_div a b = Ok r /\ lanewise2 t8_div a b r) /\
  (exists r, simd_inv a = Ok r /\ lanewise1 t8_inv a r) /\
  (exists r, simd_exp2 a = Ok r /\ lanewise1 t8_exp2 a r) /\
  (exists r, simd_square a = Ok r /\ lanewise1 t8_square a r).
Proof.
  intros A B L. split; [|split; [|split; [|split; [|split]]]].
  - apply simd2; try assumption; [reflexivity|apply t8_total2].
  - apply simd2; try assumption; [reflexivity|apply t8_total2].
  - apply simd2; try assumption; [reflexivity|apply t8_total2].
  - apply simd1; try assumption; [reflexivity|]. intros v P. destruct (chk8u_elim _ _ chk8_inv v P) as (r & E & _). eauto.
  - apply simd1; try assumption; [reflexivity|]. intros v P. destruct (chk8u_elim _ _ chk8_exp2_total v P) as (r & E & _). eauto.
  - apply simd1; try assumption; [reflexivity|]. intros v P. destruct (chk8u_elim _ _ chk8_square v P) as (r & E & _). eauto.
Qed.
(** Unary minus gives the absolute value of each lane. *)
Lemma simd_neg_abs a i : Forall byte a -> (i < length a)%nat -> int8 (nth i (simd_neg a) 0) = Z.abs (int8 (nth i a 0)) \/ nth i a 0 = 128 /\ nth i (simd_neg a) 0 = 128.
Proof.
  intros B Hi. assert (N : nth i (simd_neg a) 0 = sign_epi8 (nth i a 0) (nth i a 0))
    by exact (map_nth (fun v => sign_epi8 v v) a 0 i). rewrite N. clear N.
  assert (Bx : byte (nth i a 0)) by (rewrite Forall_forall in B; apply B, nth_In; exact Hi).
  unfold byte in Bx. set (x := nth i a 0) in *. clearbody x.
  assert (H : forallb (fun x => (int8 (sign_epi8 x x) =? Z.abs (int8 x)) || (x =? 128) && (sign_epi8 x x =? 128)) (zseq 0 256) = true) by (vm_compute; reflexivity).
  pose proof (zall _ _ _ H x ltac:(lia)) as G. cbv beta in G. apply orb_true_iff in G. rewrite andb_true_iff, !Z.eqb_eq in G. exact G.
Qed.
Lemma simd_neg_refuted : exists a, length a = 32%nat /\ Forall byte a /\ real p8 (int8 (nth 0 a 0%Z)) /\
  ~ (value p8 (int8 (nth 0 (simd_neg a) 0%Z)) == - value p8 (int8 (nth 0 a 0%Z)))%Q.
Proof.
  exists (repeat 64 32). split; [reflexivity|]. split; [repeat constructor; unfold byte; lia|].
  split; [unfold real; vm_compute; intuition congruence|]. vm_compute. congruence.
Qed.
Lemma simd_half_refuted : exists a r, length a = 32%nat /\ Forall byte a /\ (value p8 (int8 (nth 0 a 0%Z)) == 1)%Q /\
  simd_half a = Ok r /\ (value p8 (int8 (nth 0 r 0%Z)) == 51 # 64)%Q.
Proof.
  exists (repeat 64 32). eexists. split; [reflexivity|]. split; [repeat constructor; unfold byte; lia|].
  split; [vm_compute; reflexivity|]. split; [vm_compute; reflexivity|]. vm_compute. reflexivity.
Qed.

(** ** Software half floats *)
Lemma fmt_single : fmt_ok 8 23. Proof. constructor; unfold is_width; cbn; lia. Qed.
Lemma fmt_half : fmt_ok 5 10. Proof. constructor; unfold is_width; cbn; lia. Qed.

