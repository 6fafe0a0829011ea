(** Accumulated errors of running sums and sums of products. *)
From Coq Require Import ZArith QArith Qabs Qpower Lia Lqa Bool List.
From Verif Require Import Res CInt Traits Cfg Spec SpecAcc SpecProg SpecDot SpecErr Unpacked Posit Posit2 QPow Core SpecLemmas DecodeProof Ops OpsAdd Room Laws Final1 Final2 Final3 Fma Conv2 Conv3 Convert OpsUnary2 Acc1 Acc2 Acc3 Err1.
Import ListNotations.
Open Scope Z_scope.

Section Sums.
  Context (c : cfg) (V : valid_cfg c) (X : exp_ok c) (AF : add_fits c) (f : Z) (F0 : 0 <= f).
  Let u : Q := pow2 (- f).
  Definition growth (n : nat) : Q := ((1 + u) ^ Z.of_nat n - 1)%Q.
  Lemma u_pos : (0 < u)%Q. Proof using. apply pow2_pos. Qed.
  Lemma growth_S n : (growth (S n) == (1 + u) * growth n + u)%Q.
  Proof using. unfold growth. pose proof u_pos. rewrite (pw_S (1 + u) ltac:(lra)). ring. Qed.
  Lemma growth_pos n : (0 <= growth n)%Q.
  Proof using. induction n; [unfold growth; rewrite Qpower_0_r; discriminate|]. rewrite growth_S. pose proof u_pos. nra. Qed.
  Lemma step_size x y : (Qabs (y - x) <= u * Qabs x)%Q -> (Qabs y <= (1 + u) * Qabs x)%Q.
  Proof using. intros H. pose proof (Qabs_triangle (y - x) x) as T. setoid_replace (y - x + x)%Q with y in T by ring. lra. Qed.

  Lemma scaled a b g : (0 <= g)%Q -> (a <= b)%Q -> (g * a <= g * b)%Q.
  Proof using. intros G L. rewrite !(Qmult_comm g). apply Qmult_le_compat_r; assumption. Qed.
  Lemma prod0 a b : (0 <= a)%Q -> (0 <= b)%Q -> (0 <= a * b)%Q.
  Proof using. intros. apply Qmult_le_0_compat; assumption. Qed.
  Lemma sum_error l : forall s r, real c s -> Forall (real c) l -> sum_precise c f s l -> run_sum c s l = Ok r ->
    real c r /\ (Qabs (value c r - (value c s + sum_exact c l)) <= growth (length l) * (Qabs (value c s) + sum_magnitude c l))%Q.
  Proof using V X AF F0.
    induction l as [|x t IH]; intros s r RS RL P E; cbn [run_sum sum_precise sum_exact sum_magnitude fold_right length] in *.
    - injection E as <-. split; [exact RS|]. setoid_replace (value c s - (value c s + 0))%Q with 0%Q by ring. change (Qabs 0) with 0%Q. pose proof (growth_pos 0). pose proof (Qabs_nonneg (value c s)). nra.
    - inversion RL as [|? ? RX RT]; subst. destruct P as [P0 P]. destruct (p_add c s x) as [q|] eqn:E1; cbn [bind] in E; [|discriminate].
      destruct (p_add_faithful c s x q V X AF RS RX E1) as [FQ _]. destruct (IH q r (proj1 FQ) RT (P q eq_refl) E) as [RR IH']. split; [exact RR|].
      fold (sum_exact c t) in *. fold (sum_magnitude c t) in *.
      pose proof (accurate_step c f _ q V F0 P0 FQ) as A. fold u in A. pose proof (step_size _ _ A) as B. pose proof (Qabs_triangle (value c s) (value c x)) as T.
      pose proof (Qabs_triangle (value c r - (value c q + sum_exact c t)) (value c q - (value c s + value c x))) as T2.
      setoid_replace (value c r - (value c q + sum_exact c t) + (value c q - (value c s + value c x)))%Q with (value c r - (value c s + (value c x + sum_exact c t)))%Q in T2 by ring.
      rewrite growth_S. pose proof (growth_pos (length t)) as G. pose proof u_pos as U.
      assert (M0 : (0 <= sum_magnitude c t)%Q) by (clear; unfold sum_magnitude; induction t; cbn [fold_right]; [apply Qle_refl|pose proof (Qabs_nonneg (value c a)); lra]).
      revert A B T T2 IH' G U M0. generalize (growth (length t)) (Qabs (value c s)) (Qabs (value c x)) (Qabs (value c s + value c x)) (sum_magnitude c t) (Qabs (value c q)) u.
      intros g ss sx sxx m qq u0 A B T T2 IH' G U M0.
      assert (U0 : (0 <= u0)%Q) by lra. pose proof (scaled _ _ g G B) as H1. pose proof (scaled _ _ u0 U0 T) as H2. pose proof (scaled _ _ (g * (1 + u0)) (prod0 g (1 + u0) G ltac:(lra)) T) as H3.
      pose proof (prod0 u0 m U0 M0) as H4. pose proof (prod0 (u0 * m) g H4 G) as H5. lra.
  Qed.
  Lemma dot_error l : forall s r, real c s -> dot_real c l -> dot_precise c f s l -> run_dot c s l = Ok r ->
    real c r /\ (Qabs (value c r - (value c s + dot_exact c l)) <= growth (length l) * Qabs (value c s) + growth (S (length l)) * dot_magnitude c l)%Q.
  Proof using V X AF F0.
    pose proof (add_fits_mul c AF) as MF. pose proof V as V'. vcb V'.
    induction l as [|[x y] t IH]; intros s r RS RL P E; cbn [run_dot dot_precise dot_exact dot_magnitude fold_right length fst snd] in *.
    - injection E as <-. split; [exact RS|]. setoid_replace (value c s - (value c s + 0))%Q with 0%Q by ring. change (Qabs 0) with 0%Q. pose proof (prod0 _ _ (growth_pos 0) (Qabs_nonneg (value c s))). lra.
    - inversion RL as [|? ? [RX RY] RT]; subst. cbn [fst snd] in RX, RY. destruct P as [P0 P]. destruct (p_mul c x y) as [p|] eqn:E0; cbn [bind] in E; [|discriminate]. destruct (P p eq_refl) as [P1 P2].
      destruct (p_add c s p) as [q|] eqn:E1; cbn [bind] in E; [|discriminate].
      assert (T0 : rounds_tz c (value c x * value c y) p) by exact (by_room V (mul_total c x y V X MF RX RY) E0). pose proof (rounds_faithful c BN Bes _ _ T0) as FP.
      destruct (p_add_faithful c s p q V X AF RS (proj1 FP) E1) as [FQ _]. destruct (IH q r (proj1 FQ) RT (P2 q eq_refl) E) as [RR IH']. split; [exact RR|].
      fold (dot_exact c t) in *. fold (dot_magnitude c t) in *.
      pose proof (accurate_step c f _ p V F0 P0 FP) as A0. fold u in A0. pose proof (step_size _ _ A0) as B0.
      pose proof (accurate_step c f _ q V F0 P1 FQ) as A. fold u in A. pose proof (step_size _ _ A) as B. pose proof (Qabs_triangle (value c s) (value c p)) as T.
      pose proof (Qabs_triangle (value c r - (value c q + dot_exact c t)) (value c q - (value c s + value c p) + (value c p - value c x * value c y))) as T2.
      pose proof (Qabs_triangle (value c q - (value c s + value c p)) (value c p - value c x * value c y)) as T3.
      setoid_replace (value c r - (value c q + dot_exact c t) + (value c q - (value c s + value c p) + (value c p - value c x * value c y)))%Q with (value c r - (value c s + (value c x * value c y + dot_exact c t)))%Q in T2 by ring.
      pose proof (growth_S (S (length t))) as GS2. pose proof (growth_S (length t)) as GS1. pose proof (growth_pos (length t)) as G. pose proof u_pos as U.
      assert (M0 : (0 <= dot_magnitude c t)%Q) by (clear; unfold dot_magnitude; induction t; cbn [fold_right]; [apply Qle_refl|pose proof (Qabs_nonneg (value c (fst a) * value c (snd a))); lra]).
      pose proof (growth_pos (S (length t))) as GP. pose proof (Qabs_nonneg (value c x * value c y)) as N0.
      assert (GM : (growth (S (length t)) * dot_magnitude c t <= growth (S (S (length t))) * dot_magnitude c t)%Q).
      { apply Qmult_le_compat_r; [|exact M0]. rewrite GS2. pose proof (prod0 _ _ (Qlt_le_weak _ _ U) GP). lra. }
      rewrite GS2. rewrite GS2 in GM. rewrite GS1. rewrite GS1 in GM, IH'. clear GS1 GS2 GP.
      revert A0 B0 A B T T2 T3 IH' G U M0 N0 GM. generalize (growth (length t)) (Qabs (value c s)) (Qabs (value c p)) (Qabs (value c s + value c p)) (Qabs (value c x * value c y)) (dot_magnitude c t) (Qabs (value c q)) u.
      intros g ss sp ssp pr m qq u0 A0 B0 A B T T2 T3 IH' G U M0 N0 GM. assert (U0 : (0 <= u0)%Q) by lra.
      assert (SP : (ssp <= ss + (1 + u0) * pr)%Q) by lra. pose proof (scaled _ _ g G B) as H1. pose proof (scaled _ _ (g * (1 + u0)) (prod0 g (1 + u0) G ltac:(lra)) SP) as H3. pose proof (scaled _ _ u0 U0 SP) as H2. lra.
  Qed.
End Sums.

(** ** Non-negative numbers of moderate size *)
Lemma fracbits_between c f lo hi e : valid_cfg c -> f <= fracbits c lo -> f <= fracbits c hi -> lo <= e <= hi -> f <= fracbits c e.
Proof.
  intros V A B I. unfold fracbits in *. vcb V. assert (P : 0 < 2 ^ ces c) by (apply Z.pow_pos_nonneg; lia).
  pose proof (Z.div_le_mono lo e (2 ^ ces c) P ltac:(lia)) as L1. pose proof (Z.div_le_mono e hi (2 ^ ces c) P ltac:(lia)) as L2. cbv zeta in *.
  destruct (Z.leb_spec 0 (lo / 2 ^ ces c)), (Z.leb_spec 0 (hi / 2 ^ ces c)), (Z.leb_spec 0 (e / 2 ^ ces c)); lia.
Qed.
Lemma precise_range c f lo hi x : valid_cfg c -> f <= fracbits c lo -> f <= fracbits c hi -> (pow2 lo <= x)%Q -> (x < pow2 (hi + 1))%Q -> precise c f x.
Proof.
  intros V A B L U. pose proof (pow2_pos lo). right. destruct (scale_exists x ltac:(lra)) as (e & S). exists e. split; [exact S|]. apply (fracbits_between c f lo hi e V A B).
  destruct S as [S1 S2]. rewrite Qabs_pos in S1, S2 by lra. assert (lo < e + 1) by (apply pow2_lt_inv; lra). assert (e < hi + 1) by (apply pow2_lt_inv; lra). lia.
Qed.
Section Positive.
  Context (c : cfg) (V : valid_cfg c) (X : exp_ok c) (MF : mul_fits c) (f : Z) (F1 : 1 <= f) (lo hi : Z) (FL : f <= fracbits c lo) (FH : f <= fracbits c hi).
  Let w : Q := (1 - pow2 (- f))%Q.
  Lemma w0 : (0 < w)%Q. Proof using F1. exact (w_pos f F1). Qed.
  Lemma w1 : (w <= 1)%Q. Proof using. exact (w_le1 f). Qed.
  (** One non-negative addend. *)
  Lemma add_step s x r : real c s -> real c x -> 0 <= s -> 0 <= x -> x = 0 \/ (pow2 lo <= value c x)%Q -> (value c s + value c x < pow2 (hi + 1))%Q -> p_add c s x = Ok r ->
    real c r /\ 0 <= r /\ (w * (value c s + value c x) <= value c r)%Q /\ (value c r <= value c s + value c x)%Q.
  Proof using V X MF F1 FL FH.
    intros RS RX PS PX HX U E. pose proof V as V'. vcb V'. pose proof (add_tz c s x r V X MF RS RX PS PX E) as T. pose proof (rounds_tz_real c BN Bes _ _ T) as RR. pose proof w1 as W1. pose proof w0 as W0.
    assert (VS : (0 <= value c s)%Q) by (rewrite <- (value_0 c BN Bes); pose proof (real_bounds c BN Bes _ RS); apply (value_le c BN Bes); lia).
    destruct HX as [->|HX].
    - assert (K : r = s) by (unfold p_add, iszero in E; destruct (Z.eqb_spec s 0) as [->|]; cbn in E; congruence). subst r. rewrite (value_0 c BN Bes). split; [exact RS|]. split; [exact PS|]. split; [|lra].
      rewrite <- (Qmult_1_l (value c s)) at 2. setoid_replace (value c s + 0)%Q with (value c s) by ring. apply Qmult_le_compat_r; assumption.
    - pose proof (pow2_pos lo). assert (P : precise c f (value c s + value c x)) by (apply (precise_range c f lo hi); try assumption; lra).
      assert (XP : (0 < value c s + value c x)%Q) by lra. destruct (tz_step c f _ r V ltac:(lia) XP P T) as (PR & L & UU). split; [exact RR|]. split; [apply (value_sign c r V RR) in PR; lia|]. split; [exact L|exact UU].
  Qed.
  Lemma sum_nonneg l : Forall (fun x => x = 0 \/ (pow2 lo <= value c x)%Q) l -> (0 <= sum_exact c l)%Q.
  Proof using V.
    pose proof V as V'. vcb V'. induction 1 as [|x t HX HT IH]; cbn [sum_exact fold_right]; [apply Qle_refl|]. fold (sum_exact c t). pose proof (pow2_pos lo). destruct HX as [->|HX]; [rewrite (value_0 c BN Bes)|]; lra.
  Qed.
  Lemma sum_positive l : forall s r, real c s -> 0 <= s -> Forall (real c) l -> Forall (fun x => x = 0 \/ (pow2 lo <= value c x)%Q) l ->
    (value c s + sum_exact c l < pow2 (hi + 1))%Q -> run_sum c s l = Ok r ->
    real c r /\ (w ^ Z.of_nat (length l) * (value c s + sum_exact c l) <= value c r)%Q /\ (value c r <= value c s + sum_exact c l)%Q.
  Proof using V X MF F1 FL FH.
    pose proof V as V'. vcb V'. pose proof w0 as W0. pose proof w1 as W1.
    induction l as [|x t IH]; intros s r RS PS RL HL U E; cbn [run_sum sum_exact fold_right length] in *.
    - injection E as <-. split; [exact RS|]. rewrite Qpower_0_r. split; lra.
    - inversion RL as [|? ? RX RT]; subst. inversion HL as [|? ? HX HT]; subst. fold (sum_exact c t) in *. pose proof (sum_nonneg t HT) as N. destruct (p_add c s x) as [q|] eqn:E1; cbn [bind] in E; [|discriminate].
      assert (PX : 0 <= x) by (destruct HX as [->|HX]; [lia|pose proof (pow2_pos lo); assert (0 < x) by (apply (value_sign c x V RX); lra); lia]).
      destruct (add_step s x q RS RX PS PX HX ltac:(lra) E1) as (RQ & PQ & L & UQ). destruct (IH q r RQ PQ RT HT ltac:(lra) E) as (RR & L2 & U2). split; [exact RR|]. split; [|lra].
      rewrite (pw_S w W0). pose proof (pw_pos w W0 (length t)) as WP. apply (Qle_trans _ (w ^ Z.of_nat (length t) * (value c q + sum_exact c t))); [|exact L2].
      rewrite (Qmult_comm w), <- Qmult_assoc, !(Qmult_comm (w ^ Z.of_nat (length t))). apply Qmult_le_compat_r; [|lra].
      assert (K : (w * sum_exact c t <= 1 * sum_exact c t)%Q) by (apply Qmult_le_compat_r; assumption). lra.
  Qed.
  (** Numbers and totals between 2^lo and 2^(hi+1) are near enough to be added. *)
  Lemma grid_lo x r : (pow2 lo <= x)%Q -> rounds_tz c x r -> (pow2 lo <= value c r)%Q.
  Proof using V F1 FL.
    intros L T. pose proof (pow2_pos lo) as P. destruct T as [[T _]|[[_ D]|[T _]]]; [lra| |lra].
    assert (FE : 0 <= fracbits c lo) by lia. assert (M : 2 ^ fracbits c lo <= 2 ^ fracbits c lo < 2 ^ (fracbits c lo + 1)) by (split; [lia|apply Z.pow_lt_mono_r; lia]).
    destruct (grid c V lo _ FE M) as (z & RZ & PZ & EZ). rewrite dy_pow2 in EZ by exact FE. destruct (down_below c _ r z D RZ) as [H1 _]; lra.
  Qed.
  Definition zero_or (x : Z) : Prop := x = 0 \/ (pow2 lo <= value c x)%Q.
  Lemma zero_or_pos x : real c x -> zero_or x -> 0 <= x /\ (0 <= value c x)%Q.
  Proof using V.
    intros RX H. pose proof V as V'. vcb V'. pose proof (pow2_pos lo). destruct H as [->|H]; [rewrite (value_0 c BN Bes); split; [lia|apply Qle_refl]|]. split; [|lra]. assert (0 < x) by (apply (value_sign c x V RX); lra). lia.
  Qed.
  Context (Rm : roomy c) (SP : hi - lo < Z.max 32 (cF c)).
  Lemma add_def s x : real c s -> real c x -> zero_or s -> zero_or x -> (value c s + value c x < pow2 (hi + 1))%Q -> exists r, p_add c s x = Ok r /\ zero_or r.
  Proof using V X MF F1 FL Rm SP.
    intros RS RX HS HX U. pose proof V as V'. vcb V'. destruct (zero_or_pos s RS HS) as [PS VS]. destruct (zero_or_pos x RX HX) as [PX VX].
    destruct (Z.eq_dec s 0) as [->|Ns]; [exists x; split; [reflexivity|exact HX]|].
    destruct (Z.eq_dec x 0) as [->|Nx]; [exists s; split; [unfold p_add, iszero; destruct (Z.eqb_spec s 0); [contradiction|reflexivity]|exact HS]|].
    destruct HS as [->|HS]; [contradiction|]. destruct HX as [->|HX]; [contradiction|]. pose proof (pow2_pos lo) as PL.
    assert (SS : same_sign s x) by (unfold same_sign; lia). destruct (proj1 (add_same_total c s x V X MF RS RX SS)) as (r & E & T).
    - split; [|apply roomy_room; assumption]. intros ea eb [A1 A2] [B1 B2]. rewrite Qabs_pos in A1, A2, B1, B2 by lra.
      assert (lo < ea + 1) by (apply pow2_lt_inv; lra). assert (lo < eb + 1) by (apply pow2_lt_inv; lra). assert (ea < hi + 1) by (apply pow2_lt_inv; lra). assert (eb < hi + 1) by (apply pow2_lt_inv; lra). lia.
    - exists r. split; [exact E|]. right. apply (grid_lo (value c s + value c x)); [lra|exact T].
  Qed.
  Lemma sum_defined l : forall s, real c s -> zero_or s -> Forall (real c) l -> Forall zero_or l -> (value c s + sum_exact c l < pow2 (hi + 1))%Q -> exists r, run_sum c s l = Ok r.
  Proof using V X MF F1 FL FH Rm SP.
    induction l as [|x t IH]; intros s RS HS RL HL U; cbn [run_sum sum_exact fold_right] in *; [eauto|].
    inversion RL as [|? ? RX RT]; subst. inversion HL as [|? ? HX HT]; subst. fold (sum_exact c t) in *. pose proof (sum_nonneg t HT) as N.
    destruct (zero_or_pos s RS HS) as [PS VS]. destruct (zero_or_pos x RX HX) as [PX VX].
    destruct (add_def s x RS RX HS HX ltac:(lra)) as (q & E & HQ). rewrite E. cbn [bind]. destruct (add_step s x q RS RX PS PX HX ltac:(lra) E) as (RQ & _ & _ & UQ). apply IH; try assumption. lra.
  Qed.
  Lemma dot_nonneg l : Forall (fun p => 0 <= fst p /\ 0 <= snd p /\ (fst p = 0 \/ snd p = 0 \/ (pow2 lo <= value c (fst p) * value c (snd p))%Q)) l -> (0 <= dot_exact c l)%Q.
  Proof using V.
    pose proof V as V'. vcb V'. induction 1 as [|[x y] t HX HT IH]; cbn [dot_exact fold_right fst snd] in *; [apply Qle_refl|]. fold (dot_exact c t) in *. pose proof (pow2_pos lo). destruct HX as (_ & _ & [->|[->|HX]]); try rewrite (value_0 c BN Bes); lra.
  Qed.
  (** 2^lo is itself a number of the format, so a product that is not below it does not round to below it. *)
  Lemma mul_step x y p : real c x -> real c y -> 0 <= x -> 0 <= y -> x = 0 \/ y = 0 \/ (pow2 lo <= value c x * value c y)%Q -> (value c x * value c y < pow2 (hi + 1))%Q -> p_mul c x y = Ok p ->
    real c p /\ 0 <= p /\ (p = 0 \/ (pow2 lo <= value c p)%Q) /\ (w * (value c x * value c y) <= value c p)%Q /\ (value c p <= value c x * value c y)%Q.
  Proof using V X MF F1 FL FH.
    intros RX RY PX PY H U E. pose proof V as V'. vcb V'. assert (T : rounds_tz c (value c x * value c y) p) by exact (by_room V (mul_total c x y V X MF RX RY) E). pose proof (rounds_tz_real c BN Bes _ _ T) as RR.
    assert (K : (value c x * value c y == 0)%Q \/ (pow2 lo <= value c x * value c y)%Q) by (destruct H as [->|[->|H]]; [left|left|right; exact H]; rewrite (value_0 c BN Bes); ring).
    destruct K as [K|K].
    - assert (p = 0) as -> by (apply (tz_zero c _ _ V T); exact K). rewrite (value_0 c BN Bes), K. split; [exact RR|]. split; [lia|]. split; [left; reflexivity|]. split; lra.
    - pose proof (pow2_pos lo). assert (P : precise c f (value c x * value c y)) by (apply (precise_range c f lo hi); assumption). assert (XP : (0 < value c x * value c y)%Q) by lra.
      destruct (tz_step c f _ p V ltac:(lia) XP P T) as (PR & L & UU). split; [exact RR|]. split; [apply (value_sign c p V RR) in PR; lia|]. split; [right|split; assumption].
      destruct T as [[T _]|[[_ D]|[T _]]]; [lra| |lra].
      assert (FE : 0 <= fracbits c lo) by lia. assert (M : 2 ^ fracbits c lo <= 2 ^ fracbits c lo < 2 ^ (fracbits c lo + 1)) by (split; [lia|apply Z.pow_lt_mono_r; lia]).
      destruct (grid c V lo _ FE M) as (z & RZ & PZ & EZ). rewrite dy_pow2 in EZ by exact FE.
      destruct (down_below c _ p z D RZ) as [H1 _]; lra.
  Qed.
  Lemma dot_positive l : forall s r, real c s -> 0 <= s -> dot_real c l -> Forall (fun p => 0 <= fst p /\ 0 <= snd p /\ (fst p = 0 \/ snd p = 0 \/ (pow2 lo <= value c (fst p) * value c (snd p))%Q)) l ->
    (value c s + dot_exact c l < pow2 (hi + 1))%Q -> run_dot c s l = Ok r ->
    real c r /\ (w ^ Z.of_nat (length l) * (value c s + w * dot_exact c l) <= value c r)%Q /\ (value c r <= value c s + dot_exact c l)%Q.
  Proof using V X MF F1 FL FH.
    pose proof V as V'. vcb V'. pose proof w0 as W0. pose proof w1 as W1.
    induction l as [|[x y] t IH]; intros s r RS PS RL HL U E; cbn [run_dot dot_exact fold_right length fst snd] in *.
    - injection E as <-. split; [exact RS|]. assert (VS : (0 <= value c s)%Q) by (rewrite <- (value_0 c BN Bes); pose proof (real_bounds c BN Bes _ RS); apply (value_le c BN Bes); lia).
      rewrite Qpower_0_r. split; lra.
    - inversion RL as [|? ? [RX RY] RT]; subst. inversion HL as [|? ? HX HT]; subst. cbn [fst snd] in *. fold (dot_exact c t) in *. pose proof (dot_nonneg t HT) as N. destruct HX as (PX & PY & HX).
      assert (VS : (0 <= value c s)%Q) by (rewrite <- (value_0 c BN Bes); pose proof (real_bounds c BN Bes _ RS); apply (value_le c BN Bes); lia).
      destruct (p_mul c x y) as [p|] eqn:E0; cbn [bind] in E; [|discriminate]. assert (UM : (value c x * value c y < pow2 (hi + 1))%Q) by lra.
      destruct (mul_step x y p RX RY PX PY HX UM E0) as (RP & PP & HP & LP & UP).
      destruct (p_add c s p) as [q|] eqn:E1; cbn [bind] in E; [|discriminate].
      destruct (add_step s p q RS RP PS PP HP ltac:(lra) E1) as (RQ & PQ & L & UQ). destruct (IH q r RQ PQ RT HT ltac:(lra) E) as (RR & L2 & U2). split; [exact RR|]. split; [|lra].
      rewrite (pw_S w W0). pose proof (pw_pos w W0 (length t)) as WP. apply (Qle_trans _ (w ^ Z.of_nat (length t) * (value c q + w * dot_exact c t))); [|exact L2].
      rewrite (Qmult_comm w (w ^ Z.of_nat (length t))), <- Qmult_assoc, !(Qmult_comm (w ^ Z.of_nat (length t))). apply Qmult_le_compat_r; [|lra].
      pose proof (prod0 _ _ (Qlt_le_weak _ _ W0) N) as K1. assert (K2 : (w * (w * dot_exact c t) <= 1 * (w * dot_exact c t))%Q) by (apply Qmult_le_compat_r; assumption).
      pose proof (scaled _ _ w (Qlt_le_weak _ _ W0) LP) as K3. lra.
  Qed.
  Lemma dot_defined l : forall s, real c s -> zero_or s -> dot_real c l -> Forall (fun p => 0 <= fst p /\ 0 <= snd p /\ (fst p = 0 \/ snd p = 0 \/ (pow2 lo <= value c (fst p) * value c (snd p))%Q)) l ->
    (value c s + dot_exact c l < pow2 (hi + 1))%Q -> exists r, run_dot c s l = Ok r.
  Proof using V X MF F1 FL FH Rm SP.
    pose proof V as V'. vcb V'. induction l as [|[x y] t IH]; intros s RS HS RL HL U; cbn [run_dot dot_exact fold_right fst snd] in *; [eauto|].
    inversion RL as [|? ? [RX RY] RT]; subst. inversion HL as [|? ? HX HT]; subst. cbn [fst snd] in *. fold (dot_exact c t) in *. pose proof (dot_nonneg t HT) as N. destruct HX as (PX & PY & HX).
    destruct (zero_or_pos s RS HS) as [PS VS]. destruct (proj1 (mul_total c x y V X MF RX RY) (roomy_room c _ V Rm)) as (p & E & _).
    assert (UM : (value c x * value c y < pow2 (hi + 1))%Q) by lra.
    destruct (mul_step x y p RX RY PX PY HX UM E) as (RP & PP & HP & LP & UP). rewrite E. cbn [bind].
    destruct (add_def s p RS RP HS HP ltac:(lra)) as (q & E2 & HQ). rewrite E2. cbn [bind]. destruct (add_step s p q RS RP PS PP HP ltac:(lra) E2) as (RQ & _ & _ & UQ). apply IH; try assumption. lra.
  Qed.
End Positive.
