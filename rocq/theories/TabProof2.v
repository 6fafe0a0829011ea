(** The posit8 tables against the generic template, conversions, constants, exp2. *)
From Coq Require Import ZArith QArith Qabs List Bool Lia Lqa.
From Verif Require Import Res CInt Traits Unpacked Cfg Posit Configs Spec QPow Core SpecLemmas Arith DecodeProof EncodeProof
  UOps UAdd Ops OpsAdd OpsUnary OpsUnary2 Specials Room Laws Final1 Final2 Final3 Tab TabProof.
From Verif Require Tbl8 Tbl12.
Import ListNotations.
Open Scope Z_scope.

(** ** Formats of small range: addition is defined on all operands *)
Lemma near_small c a b : valid_cfg c -> frac_fits c -> 2 * ((cN c - 2) * 2 ^ ces c) < Z.max 32 (cF c) ->
  real c a -> real c b -> near c (value c a) (value c b).
Proof.
  intros V FF S Ra Rb ea eb Sa Sb. vcb V.
  assert (G : forall v e, real c v -> scale (value c v) e -> - emax c <= e <= emax c).
  { intros v e R Sv. destruct (Z.eq_dec v 0) as [->|NZ].
    - exfalso. apply (scale_nz _ _ Sv). apply value_0; assumption.
    - destruct (unpack_scale c v e V FF R NZ Sv) as [f E].
      destruct (unpack_reg c v V R NZ) as (e' & f' & E' & _ & B). rewrite E in E'. injection E' as <- <-. exact B. }
  pose proof (G a ea Ra Sa). pose proof (G b eb Rb Sb). fold (emax c) in S. lia.
Qed.

(** ** A faithful result is at most one step from the truncated one *)
Lemma faithful_step c x v w : valid_cfg c -> rounds_tz c x v -> faithful c x w -> Z.abs (v - w) <= 1.
Proof.
  intros V RT [Rw [Ex [A B]]]. vcb V.
  pose proof (maxreal_bounds c BN Bes) as MB.
  assert (K : forall y v w, (0 < y)%Q -> down_pos c y v -> real c w ->
    (forall u, real c u -> (value c u == y)%Q -> w = u) ->
    (forall u, real c u -> ~ (y < value c u < value c w)%Q) ->
    (forall u, real c u -> ~ (value c w < value c u < y)%Q) -> Z.abs (v - w) <= 1).
  { clear - BN Bes MB. intros y v w Y D Rw Ex A B.
    destruct (down_pos_elim c BN Bes y v D) as (L & Lo & Up).
    pose proof (real_bounds c BN Bes w Rw) as Bw. unfold real in Rw.
    assert (w <= v + 1).
    { destruct (Z_le_gt_dec w (v + 1)) as [|G]; [assumption|exfalso].
      destruct Up as [->|Up]; [lia|]. apply (A (v + 1)); [unfold real; lia|]. split; [assumption|].
      apply value_lt; try assumption; lia. }
    assert (v - 1 <= w); [|lia].
    destruct (Z_le_gt_dec (v - 1) w) as [|G]; [assumption|exfalso].
    assert (Rv : real c v) by (unfold real; lia).
    destruct Lo as [Lo|Lo].
    - destruct (Qlt_le_dec (value c v) y) as [I|I].
      + apply (B v Rv). split; [|assumption]. apply value_lt; try assumption; lia.
      + assert (w = v) by (apply Ex; [assumption|apply Qle_antisym; assumption]). lia.
    - apply (B 0); [unfold real; lia|]. rewrite value_0 by assumption. split; [|assumption].
      pose proof (value_lt c BN Bes w 0 ltac:(lia) ltac:(lia) ltac:(lia)) as W. rewrite value_0 in W by assumption. exact W. }
  destruct RT as [[E ->]|[[P D]|[P D]]].
  - rewrite <- (Ex 0); [lia|unfold real; lia|]. rewrite E. apply value_0; assumption.
  - apply (K x v w); assumption.
  - replace (Z.abs (v - w)) with (Z.abs (- v - - w)) by lia.
    apply (K (- x)%Q (- v) (- w)); [lra|assumption|apply real_opp; assumption| | |].
    + intros u Ru Eu. rewrite (Ex (- u)); [lia|apply real_opp; assumption|]. rewrite value_opp, Eu by assumption. ring.
    + intros u Ru [H1 H2]. apply (B (- u)); [apply real_opp; assumption|]. rewrite value_opp in * by assumption. lra.
    + intros u Ru [H1 H2]. apply (A (- u)); [apply real_opp; assumption|]. rewrite value_opp in * by assumption. lra.
Qed.

(** ** posit8 and Posit<int8_t,8,0,uint8_t,WithNan> *)
Lemma exp_p8 : exp_ok p8. Proof. unfold exp_ok. cbn. lia. Qed.
Lemma mul_p8 : mul_fits p8. Proof. unfold mul_fits. cbn. lia. Qed.
Lemma frac_p8 : frac_fits p8. Proof. unfold frac_fits. cbn. lia. Qed.
Lemma roomy_p8 : roomy p8. Proof. unfold roomy. cbn. lia. Qed.
Lemma near_p8 a b : real p8 a -> real p8 b -> near p8 (value p8 a) (value p8 b).
Proof. apply near_small; [exact valid_p8|exact frac_p8|]. cbn. lia. Qed.

Lemma agree8_mul_real a b : real p8 a -> real p8 b -> p_mul p8 a b = t8_mul a b.
Proof.
  intros A B. pose proof valid_p8 as V. vcb V.
  destruct (proj1 (mul_total p8 a b valid_p8 exp_p8 mul_p8 A B) (roomy_room _ _ valid_p8 roomy_p8)) as (r & E & H).
  destruct (t8_mul_rounds a b A B) as (r' & E' & H'). rewrite E, E'. f_equal.
  exact (rounds_tz_unique p8 BN Bes _ _ _ H H').
Qed.
Lemma agree8_div_real a b : real p8 a -> real p8 b -> b <> 0 -> p_div p8 a b = t8_div a b.
Proof.
  intros A B N0. pose proof valid_p8 as V. vcb V.
  destruct (proj1 (div_total p8 a b valid_p8 exp_p8 mul_p8 A B N0) (roomy_room _ _ valid_p8 roomy_p8)) as (r & E & H).
  destruct (t8_div_rounds a b A B N0) as (r' & E' & H'). rewrite E, E'. f_equal.
  exact (rounds_tz_unique p8 BN Bes _ _ _ H H').
Qed.
Lemma agree8_add_same a b : real p8 a -> real p8 b -> same_sign a b \/ a = 0 \/ b = 0 -> p_add p8 a b = t8_add a b.
Proof.
  intros A B S. pose proof valid_p8 as V. vcb V.
  destruct (t8_add_rounds a b A B) as (r' & E' & H'). rewrite E'.
  destruct S as [S|[->| ->]].
  - destruct (proj1 (add_same_total p8 a b valid_p8 exp_p8 mul_p8 A B S)
      (conj (near_p8 a b A B) (roomy_room _ _ valid_p8 roomy_p8))) as (r & E & H).
    rewrite E. f_equal. exact (rounds_tz_unique p8 BN Bes _ _ _ H H').
  - unfold p_add. cbn [iszero Z.eqb]. f_equal. apply (rounds_tz_unique p8 BN Bes (value p8 b));
      [apply rounds_tz_exact; assumption|]. refine (rounds_tz_comp p8 BN Bes _ _ _ _ H').
    rewrite (value_0 p8) by assumption. ring.
  - unfold p_add. destruct (iszero a) eqn:Z.
    + unfold iszero in Z. apply Z.eqb_eq in Z. subst a. f_equal. apply (rounds_tz_unique p8 BN Bes (value p8 0));
      [apply rounds_tz_exact; assumption|]. refine (rounds_tz_comp p8 BN Bes _ _ _ _ H').
      rewrite (value_0 p8) by assumption. ring.
    + cbn [iszero Z.eqb]. f_equal. apply (rounds_tz_unique p8 BN Bes (value p8 a));
      [apply rounds_tz_exact; assumption|]. refine (rounds_tz_comp p8 BN Bes _ _ _ _ H').
      rewrite (value_0 p8) by assumption. ring.
Qed.
Lemma agree8_add_step a b : real p8 a -> real p8 b ->
  exists r s, p_add p8 a b = Ok r /\ t8_add a b = Ok s /\ Z.abs (s - r) <= 1.
Proof.
  intros A B. pose proof valid_p8 as V. vcb V.
  destruct (t8_add_rounds a b A B) as (s & E' & H').
  destruct (proj1 (add_total p8 a b valid_p8 exp_p8 add_p8 A B)) as (r & E & F & _).
  { left. split; [apply near_p8; assumption|apply roomy_room_up; [exact valid_p8|exact roomy_p8]]. }
  exists r, s. split; [exact E|]. split; [exact E'|]. exact (faithful_step p8 _ s r valid_p8 H' F).
Qed.

(** NaN as left operand, and division by zero. *)
Definition same_res (r s : res Z) : bool := match r, s with Ok a, Ok b => a =? b | _, _ => false end.
Lemma same_res_eq r s : same_res r s = true -> r = s.
Proof. destruct r, s; cbn; try discriminate. intros H. apply Z.eqb_eq in H. congruence. Qed.
Lemma same_res_neq r z : negb (same_res r (Ok z)) = true -> r <> Ok z.
Proof. intros H E. rewrite E in H. cbn [same_res] in H. rewrite Z.eqb_refl in H. discriminate. Qed.
Lemma agree8_nan_left b : pattern p8 b ->
  p_mul p8 (exceptional p8) b = t8_mul (exceptional p8) b /\ p_div p8 (exceptional p8) b = t8_div (exceptional p8) b.
Proof.
  intros B. assert (H : forallb (fun b => same_res (p_mul p8 (-128) b) (t8_mul (-128) b) && same_res (p_div p8 (-128) b) (t8_div (-128) b))
    (zseq (-128) 256) = true) by (vm_compute; reflexivity).
  pose proof (zall _ _ _ H b) as G. unfold pattern in B. cbn in B. specialize (G ltac:(lia)).
  apply andb_true_iff in G. split; apply same_res_eq; apply G.
Qed.
Lemma agree8_add_nan_left b : pattern p8 b -> b <> 0 ->
  p_add p8 (exceptional p8) b = t8_add (exceptional p8) b.
Proof.
  intros B _. assert (H : forallb (fun b => same_res (p_add p8 (-128) b) (t8_add (-128) b))
    (zseq (-128) 256) = true) by (vm_compute; reflexivity).
  unfold pattern in B. cbn in B. apply same_res_eq, (zall _ _ _ H b). lia.
Qed.
Lemma agree8_div_zero a : pattern p8 a -> p_div p8 a 0 = t8_div a 0.
Proof.
  intros B. assert (H : forallb (fun b => same_res (p_div p8 b 0) (t8_div b 0))
    (zseq (-128) 256) = true) by (vm_compute; reflexivity).
  unfold pattern in B. cbn in B. apply same_res_eq, (zall _ _ _ H a). lia.
Qed.

Lemma pattern_cases8 v : pattern p8 v -> v = exceptional p8 \/ real p8 v.
Proof. unfold pattern, real. cbn. intros. change (exceptional p8) with (-128). lia. Qed.

Lemma agree8_mul a b : pattern p8 a -> real p8 b -> p_mul p8 a b = t8_mul a b.
Proof.
  intros A B. destruct (pattern_cases8 a A) as [->|R]; [|apply agree8_mul_real; assumption].
  apply agree8_nan_left. destruct (real8 b B) as (P & _). exact P.
Qed.
Lemma agree8_div a b : pattern p8 a -> real p8 b -> p_div p8 a b = t8_div a b.
Proof.
  intros A B. destruct (Z.eq_dec b 0) as [->|N0]; [apply agree8_div_zero; exact A|].
  destruct (pattern_cases8 a A) as [->|R]; [|apply agree8_div_real; assumption].
  apply agree8_nan_left. destruct (real8 b B) as (P & _). exact P.
Qed.

(** NaN as right operand: the generic operators ignore it. *)
Lemma differ8_nan a : real p8 a ->
  t8_mul a (exceptional p8) = Ok (exceptional p8) /\ t8_div a (exceptional p8) = Ok (exceptional p8) /\
  p_mul p8 a (exceptional p8) <> Ok (exceptional p8) /\ p_div p8 a (exceptional p8) <> Ok (exceptional p8).
Proof.
  intros R. destruct (real8 a R) as (P & _ & B).
  assert (PN : pattern p8 (exceptional p8)) by (unfold pattern; cbn; lia).
  assert (NN : is_nan p8 (exceptional p8)) by (split; [discriminate|reflexivity]).
  destruct (t8_nan_any a _ P PN (or_intror NN)) as (_ & M & D & _). split; [exact M|]. split; [exact D|].
  assert (H : forallb (fun a => negb (same_res (p_mul p8 a (-128)) (Ok (-128))) && negb (same_res (p_div p8 a (-128)) (Ok (-128)))
     ) (zseq (-127) 255) = true) by (vm_compute; reflexivity).
  pose proof (zall _ _ _ H a ltac:(lia)) as G. apply andb_true_iff in G. destruct G as [G1 G2].
  split; [exact (same_res_neq _ _ G1)|exact (same_res_neq _ _ G2)].
Qed.
Lemma differ8_add : exists a b, real p8 a /\ real p8 b /\ p_add p8 a b <> t8_add a b.
Proof. exists (-127), 1. vm_compute. repeat split; congruence. Qed.

Definition chk8agree (f g : Z -> res Z) (P : Z -> bool) : bool := forallb (fun v => implb (P v) (same_res (f v) (g v))) (zseq (-128) 256).
Lemma chk8agree_elim f g P : chk8agree f g P = true -> forall v, pattern p8 v -> P v = true -> f v = g v.
Proof.
  intros H v B Pv. unfold pattern in B. cbn in B. pose proof (zall _ _ _ H v ltac:(lia)) as G.
  cbv beta in G. rewrite Pv in G. apply same_res_eq, G.
Qed.
Lemma agree8_unary v : pattern p8 v ->
  p_inv p8 v = t8_inv v /\ p_twice p8 v = t8_twice v /\ p_mul p8 v v = t8_square v /\
  p_neg p8 v = Ok (t8_neg v) /\ p_abs p8 v = Ok (t8_abs v) /\
  (v <> 1 -> v <> -1 -> p_half p8 v = t8_half v) /\
  isNaN p8 v = t8_is_nan v.
Proof.
  intros P. repeat split.
  - apply (chk8agree_elim _ _ (fun _ => true)); [vm_compute; reflexivity|exact P|reflexivity].
  - apply (chk8agree_elim _ _ (fun _ => true)); [vm_compute; reflexivity|exact P|reflexivity].
  - apply (chk8agree_elim (fun v => p_mul p8 v v) _ (fun _ => true)); [vm_compute; reflexivity|exact P|reflexivity].
  - apply (chk8agree_elim _ (fun v => Ok (t8_neg v)) (fun _ => true)); [vm_compute; reflexivity|exact P|reflexivity].
  - apply (chk8agree_elim _ (fun v => Ok (t8_abs v)) (fun _ => true)); [vm_compute; reflexivity|exact P|reflexivity].
  - intros N1 N2. apply (chk8agree_elim _ _ (fun v => negb (v =? 1) && negb (v =? -1))); [vm_compute; reflexivity|exact P|].
    apply andb_true_iff. rewrite !negb_true_iff, !Z.eqb_neq. auto.
Qed.
Lemma differ8_half : p_half p8 1 = Ok 0 /\ t8_half 1 = Ok 1 /\ p_half p8 (-1) = Ok 0 /\ t8_half (-1) = Ok (-1).
Proof. vm_compute. auto. Qed.

(** ** Conversion of posit8 to and from float *)
Definition fin_is (eb fb b : Z) (q : Q) : bool := match ieee_val eb fb b with FinVal x => Qeq_bool x q | _ => false end.
Lemma fin_is_ok eb fb b q : fin_is eb fb b q = true -> exists x, ieee_val eb fb b = FinVal x /\ (x == q)%Q.
Proof. unfold fin_is. destruct (ieee_val eb fb b); try discriminate. intros H. eauto using Qeq_bool_eq. Qed.

Lemma chk8_float : forallb (fun v => on_ok (t8_to_float v) (fun b =>
  (0 <=? b) && (b <? 2 ^ 32) && fin_is 8 23 b (value p8 v) && same_res (t8_of_float b) (Ok v) &&
  same_res (float_to_int b) (Ok (Z.quot (s8 v) 64)))) (zseq (-127) 255) = true.
Proof. vm_compute. reflexivity. Qed.
Lemma t8_float v : real p8 v -> exists b x, t8_to_float v = Ok b /\ 0 <= b < 2 ^ 32 /\
  ieee_val 8 23 b = FinVal x /\ (x == value p8 v)%Q /\ t8_of_float b = Ok v.
Proof.
  intros R. destruct (real8 v R) as (_ & _ & B).
  pose proof (zall _ _ _ chk8_float v ltac:(lia)) as G. cbv beta in G.
  apply on_ok_elim in G. destruct G as (b & E & G). repeat rewrite andb_true_iff in G.
  destruct G as [[[[G1 G2] G3] G4] G5]. apply fin_is_ok in G3. destruct G3 as (x & X & XE).
  exists b, x. split; [exact E|]. split; [lia|]. split; [exact X|]. split; [exact XE|].
  apply same_res_eq, G4.
Qed.
Lemma t8_float_nan : exists b, t8_to_float (exceptional p8) = Ok b /\ ieee_val 8 23 b = NaNVal /\ t8_of_float b = Ok (exceptional p8).
Proof. exists 0x7fc00000. vm_compute. auto. Qed.

Lemma trunc_quot (x : Q) n : (x == n # 64)%Q -> truncated x (Z.quot n 64).
Proof.
  intros X. unfold truncated.
  assert (Q1 : Z.abs (Z.quot n 64) * 64 <= Z.abs n < (Z.abs (Z.quot n 64) + 1) * 64).
  { rewrite <- (Z.quot_abs n 64) by lia. change (Z.abs 64) with 64. pose proof (Z.quot_rem' (Z.abs n) 64).
    pose proof (Z.rem_bound_pos (Z.abs n) 64 ltac:(lia) ltac:(lia)). lia. }
  assert (Q2 : 0 <= Z.quot n 64 * n).
  { destruct (Z_le_gt_dec 0 n).
    - pose proof (Z.quot_pos n 64 ltac:(lia) ltac:(lia)). nia.
    - pose proof (Z.quot_pos (- n) 64 ltac:(lia) ltac:(lia)) as H. rewrite Z.quot_opp_l in H by lia. nia. }
  rewrite X. unfold Qabs, Qle, Qlt, Qmult, inject_Z. cbn [Qnum Qden]. repeat split; lia.
Qed.
Lemma t8_int v : real p8 v -> exists i, t8_to_int v = Ok i /\ truncated (value p8 v) i.
Proof.
  intros R. destruct (real8 v R) as (_ & _ & B).
  pose proof (zall _ _ _ chk8_float v ltac:(lia)) as G. cbv beta in G.
  apply on_ok_elim in G. destruct G as (b & E & G). repeat rewrite andb_true_iff in G.
  destruct G as [_ G5]. apply same_res_eq in G5. exists (Z.quot (s8 v) 64). split.
  - unfold t8_to_int. rewrite E. exact G5.
  - apply trunc_quot. apply (sv_ok p8 64 iv8 valid_p8 iv8_ok). exact R.
Qed.
Lemma t8_int_nan : t8_to_int (exceptional p8) = UB FloatToInt.
Proof. vm_compute. reflexivity. Qed.
