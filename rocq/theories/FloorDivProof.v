(** Proofs about FLOORDIV. *)
From Coq Require Import ZArith Bool Lia.
From Verif Require Import Res CInt Cfg Posit Arith EncodeProof FloorDiv.
Open Scope Z_scope.

Lemma wrapu_id w z : 0 <= z < 2 ^ w -> wrapu w z = z.
Proof. intros H. unfold wrapu. apply Z.mod_small. exact H. Qed.

Lemma cast_id t z : 0 < iw t -> fits t z = true -> cast t z = z.
Proof.
  intros W F. unfold fits, min_of, max_of in F. apply andb_prop in F. destruct F as [A B].
  apply Z.leb_le in A. apply Z.leb_le in B. unfold cast. destruct (isg t).
  - apply wraps_small; [exact W|lia].
  - apply wrapu_id. lia.
Qed.

Lemma fits_prom t z : 0 < iw t -> fits t z = true -> fits (prom t) z = true.
Proof.
  intros W F. unfold prom. destruct (Z.ltb_spec (iw t) 32) as [L|]; [|exact F].
  unfold fits, min_of, max_of in *. apply andb_prop in F. destruct F as [A B].
  apply Z.leb_le in A. apply Z.leb_le in B. cbn [isg iw c_int sint].
  assert (P : 2 ^ iw t <= 2 ^ 31) by (apply Z.pow_le_mono_r; lia).
  assert (P' : 2 ^ (iw t - 1) <= 2 ^ 31) by (apply Z.pow_le_mono_r; lia).
  change (2 ^ (32 - 1)) with (2 ^ 31).
  destruct (isg t); apply andb_true_intro; split; apply Z.leb_le; lia.
Qed.

Lemma arith_id t z : 0 < iw t -> fits t z = true -> arith t z = Ok z.
Proof.
  intros W F. unfold arith. destruct (isg t) eqn:S.
  - rewrite F. reflexivity.
  - f_equal. apply wrapu_id. unfold fits, min_of, max_of in F. rewrite S in F. apply andb_prop in F.
    destruct F as [A B]. apply Z.leb_le in A. apply Z.leb_le in B. lia.
Qed.

Lemma prom_wide t : 0 < iw t -> 32 <= iw (prom t).
Proof. intros W. unfold prom. destruct (Z.ltb_spec (iw t) 32); cbn; lia. Qed.

Lemma common_int t : 0 < iw t -> common t c_int = prom t.
Proof.
  intros W. pose proof (prom_wide t W) as P. unfold common. change (prom c_int) with c_int. cbn [iw c_int sint].
  change (iw c_int) with 32. destruct (Z.ltb_spec (iw (prom t)) 32); [lia|].
  destruct (Z.ltb_spec 32 (iw (prom t))); [reflexivity|].
  destruct (isg (prom t)) eqn:S; [|reflexivity].
  destruct (prom t) as [w s]. cbn in *. subst s. replace w with 32 by lia. reflexivity.
Qed.

Lemma fits_between t a b z : fits t a = true -> fits t b = true -> a <= z <= b -> fits t z = true.
Proof.
  unfold fits. intros A B H. apply andb_prop in A, B. destruct A as [A _]. destruct B as [_ B].
  apply Z.leb_le in A. apply Z.leb_le in B. apply andb_true_intro; split; apply Z.leb_le; lia.
Qed.

Lemma floordiv_eval t a b : 0 < iw t -> b <> 0 ->
  let q := Z.quot a b in let d := q - (if Z.rem a b <? 0 then 1 else 0) in
  fits (prom t) q = true -> fits (prom t) d = true -> floordiv t a b = Ok (cast t d).
Proof.
  intros W B q d Q D. unfold floordiv, cdiv, csub. rewrite common_int by exact W.
  pose proof (prom_wide t W) as P.
  destruct (Z.eqb_spec b 0); [contradiction|].
  rewrite arith_id by (try exact Q; lia). cbn [bind]. fold q.
  rewrite arith_id by (try exact D; lia). reflexivity.
Qed.

Lemma zero_fits t : 0 < iw t -> fits t 0 = true.
Proof.
  intros W. unfold fits, min_of, max_of.
  pose proof (Z.pow_pos_nonneg 2 (iw t - 1) ltac:(lia) ltac:(lia)).
  pose proof (Z.pow_pos_nonneg 2 (iw t) ltac:(lia) ltac:(lia)).
  destruct (isg t); apply andb_true_intro; split; apply Z.leb_le; lia.
Qed.

Lemma quot_rem_floor a b : 0 < b -> Z.quot a b - (if Z.rem a b <? 0 then 1 else 0) = a / b.
Proof.
  intros B. pose proof (Z.quot_rem' a b) as E.
  assert (RB : (0 <= a -> 0 <= Z.rem a b < b) /\ (a <= 0 -> - b < Z.rem a b <= 0)).
  { split; intros P; [apply (Z.rem_bound_pos a b P B)|apply (Z.rem_bound_pos_neg a b B P)]. }
  revert E RB. generalize (Z.quot a b) (Z.rem a b). intros q r E [R1 R2].
  destruct (Z.ltb_spec r 0) as [L|G].
  - apply (Z.div_unique a b _ (r + b)); [left; lia|]. rewrite E at 1. ring.
  - apply (Z.div_unique a b _ r); [left; lia|]. rewrite E at 1. ring.
Qed.

Lemma div_between a b : 0 < b -> Z.min a 0 <= a / b <= Z.max a 0.
Proof.
  intros B. destruct (Z_le_gt_dec 0 a) as [P|N].
  - pose proof (Z.div_pos a b P B). pose proof (Z.div_le_upper_bound a b a B ltac:(nia)). lia.
  - pose proof (Z.div_le_lower_bound a b a B ltac:(nia)).
    assert (a / b < 0) by (apply Z.div_lt_upper_bound; lia). lia.
Qed.

Lemma floordiv_div t a b : 0 < iw t -> fits t a = true -> 0 < b -> floordiv t a b = Ok (a / b) /\ fits t (a / b) = true.
Proof.
  intros W A B. pose proof (zero_fits t W) as Z0. pose proof (div_between a b B) as D.
  assert (F : fits t (a / b) = true).
  { destruct (Z_le_gt_dec 0 a) as [P|N]; [apply (fits_between t 0 a)|apply (fits_between t a 0)]; try assumption; lia. }
  assert (Fq : fits t (Z.quot a b) = true).
  { pose proof (quot_rem_floor a b B) as E. pose proof (Z.quot_rem' a b) as QR.
    destruct (Z_le_gt_dec 0 a) as [P|N].
    - rewrite Z.quot_div_nonneg by lia. exact F.
    - apply (fits_between t (a / b) 0); [assumption|assumption|].
      pose proof (Z.rem_bound_pos_neg a b B ltac:(lia)) as RB.
      destruct (Z.rem a b <? 0); split; nia. }
  split; [|exact F]. rewrite floordiv_eval.
  - rewrite quot_rem_floor by exact B. rewrite cast_id by assumption. reflexivity.
  - exact W.
  - lia.
  - apply fits_prom; assumption.
  - rewrite quot_rem_floor by exact B. apply fits_prom; assumption.
Qed.

Lemma floordiv_floor t a b : 8 <= iw t -> fits t a = true -> fits t b = true -> 0 < b ->
  exists q, floordiv t a b = Ok q /\ fits t q = true /\ q * b <= a < (q + 1) * b.
Proof.
  intros W A _ B. destruct (floordiv_div t a b ltac:(lia) A B) as [E F]. exists (a / b).
  split; [exact E|]. split; [exact F|]. pose proof (Z.div_mod a b ltac:(lia)). pose proof (Z.mod_pos_bound a b B). nia.
Qed.

Lemma floordiv_neg t a b : 8 <= iw t -> isg t = true -> fits t a = true -> fits t b = true -> b < 0 ->
  ~ (a = min_of t /\ b = -1) ->
  exists q, floordiv t a b = Ok q /\ ((q + 1) * b < a <= q * b <-> Z.divide b a) /\
    (~ Z.divide b a -> (0 < a -> (q - 1 + 1) * b < a <= (q - 1) * b) /\ (a < 0 -> (q + 1 + 1) * b < a <= (q + 1) * b)).
Proof.
  intros W S A B N X. pose proof (Z.quot_rem' a b) as E.
  assert (RB : (0 <= a -> 0 <= Z.rem a b < - b) /\ (a <= 0 -> b < Z.rem a b <= 0)).
  { split; intros H; [pose proof (Z.rem_bound_neg_pos a b N H); lia|pose proof (Z.rem_bound_neg_neg a b N H); lia]. }
  assert (DV : Z.divide b a <-> Z.rem a b = 0) by (symmetry; apply Z.rem_divide; lia).
  set (q := Z.quot a b) in *. set (r := Z.rem a b) in *.
  unfold fits, min_of, max_of in A, B, X. rewrite S in A, B, X. apply andb_prop in A, B. destruct A as [A1 A2], B as [B1 B2].
  apply Z.leb_le in A1, A2, B1, B2. set (m := 2 ^ (iw t - 1)) in *.
  assert (M : 0 < m) by (apply Z.pow_pos_nonneg; lia).
  assert (Q : - m + 1 <= q <= m - 1 /\ (r < 0 -> 0 <= q)).
  { destruct (Z_le_gt_dec 0 a) as [P|G].
    - destruct RB as [R _]. specialize (R P). split; [split; nia|lia].
    - destruct RB as [_ R]. specialize (R ltac:(lia)). assert (0 <= q) by nia.
      split; [split; [lia|]|auto].
      destruct (Z.eq_dec b (-1)) as [->|]; [|nia].
      assert (a <> - m) by (intros ->; apply X; split; reflexivity). nia. }
  set (d := q - (if r <? 0 then 1 else 0)).
  assert (D : - m <= d <= m - 1) by (unfold d; destruct (Z.ltb_spec r 0); lia).
  assert (Fq : fits t q = true).
  { unfold fits, min_of, max_of. rewrite S. fold m. apply andb_true_intro; split; apply Z.leb_le; lia. }
  assert (Fd : fits t d = true).
  { unfold fits, min_of, max_of. rewrite S. fold m. apply andb_true_intro; split; apply Z.leb_le; lia. }
  exists d. split.
  { rewrite floordiv_eval; [|lia|lia|apply fits_prom; [lia|exact Fq]|apply fits_prom; [lia|exact Fd]].
    fold q r d. rewrite cast_id by (try exact Fd; lia). reflexivity. }
  rewrite DV. unfold d. destruct RB as [R1 R2].
  destruct (Z.ltb_spec r 0) as [L|G].
  - assert (a < 0) by lia. split; [split; [intros; nia|lia]|]. intros _. split; [lia|]. intros _. nia.
  - split; [split|].
    + intros H. destruct (Z.eq_dec r 0) as [|Ne]; [assumption|]. exfalso. nia.
    + intros R0. rewrite R0 in *. nia.
    + intros Nz. split; [|lia]. intros _. nia.
Qed.

Lemma floordiv_undef t a : floordiv t a 0 = UB DivZero.
Proof. reflexivity. Qed.

Lemma floordiv_over t : 32 <= iw t -> isg t = true -> floordiv t (min_of t) (-1) = UB SignedOverflow.
Proof.
  intros W S. unfold floordiv, cdiv. unfold prom. destruct (Z.ltb_spec (iw t) 32); [lia|]. cbn [Z.eqb].
  unfold arith. rewrite S. unfold min_of. rewrite S.
  change (-1) with (- (1)). rewrite Z.quot_opp_opp by lia. rewrite Z.quot_1_r.
  unfold fits, max_of, min_of. rewrite S.
  pose proof (Z.pow_pos_nonneg 2 (iw t - 1) ltac:(lia) ltac:(lia)).
  destruct (Z.leb_spec (- 2 ^ (iw t - 1)) (2 ^ (iw t - 1))); [|lia].
  destruct (Z.leb_spec (2 ^ (iw t - 1)) (2 ^ (iw t - 1) - 1)); [lia|]. reflexivity.
Qed.

(** The regime that splitting an exponent gives, written with a shift in posit.h, is the FLOORDIV of its comment. *)
Lemma floordiv_regime c e : valid_cfg c -> - emax c <= e <= emax c ->
  exists reg ex, split_reg_exp c e = Ok (reg, ex) /\ floordiv (tE c) e (2 ^ ces c) = Ok reg.
Proof.
  intros V H. exists (e / 2 ^ ces c), (e mod 2 ^ ces c). split; [apply split_spec; assumption|].
  pose proof (emax_bound c V) as [E1 E2].
  assert (CE : 0 < c_E c) by (destruct (Z_lt_le_dec 0 (c_E c)); [assumption|rewrite Z.pow_neg_r in E2 by lia; lia]).
  assert (0 <= ces c).
  { destruct (Z_le_gt_dec 0 (ces c)); [assumption|]. unfold emax in E1. rewrite Z.pow_neg_r in E1 by lia. lia. }
  apply floordiv_div; [exact CE| |apply Z.pow_pos_nonneg; lia].
  unfold fits, tE, min_of, max_of. cbn [isg iw sint]. apply andb_true_intro; split; apply Z.leb_le; lia.
Qed.
Lemma floordiv_split c e lo : valid_cfg c -> minexponent c = Ok lo -> lo <= e <= - lo ->
  exists reg ex, split_reg_exp c e = Ok (reg, ex) /\ floordiv (tE c) e (2 ^ ces c) = Ok reg.
Proof.
  intros V L H. rewrite minexponent_spec in L by exact V. injection L as <-. apply floordiv_regime; [exact V|lia].
Qed.
